(** Where solve_tool starts, and starting again from a solution.  Nothing else in this file;
    proofs are in ProofsStart, ProofsRestart and WitnessStart. *)
From Coq Require Import Reals List Arith Bool ZArith Permutation Lia Lra String.
From Coquelicot Require Import Coquelicot.
From Verif Require Import Base SpecGraph SpecDirected SpecWeighted SpecCReMa SpecEnsemble SpecNetwork SpecSolve SpecDispatch
  ModelCM ModelECM ModelDCM ModelDECM ModelCReMa ModelNetwork ModelGuess ModelDispatch ModelSolve ModelTool SpecTool SpecStart
  ProofsGraph ProofsEnsemble ProofsMainCReMa ProofsDispatch ProofsSolve ProofsSolveU ProofsSolveD ProofsTool ProofsToolD ProofsStart ProofsRestart
  WitnessSolve WitnessTool WitnessStart.
Import ListNotations.
Local Open Scope string_scope.
Local Open Scope R_scope.

(** C91: a completed call that makes no step leaves the starting point its name stands for. *)
Theorem C91_cm :
  forall (e : environment) (g : unet) (t : settings) (o o' : ustate) (nm : string),
    (0 < un_n g)%nat ->
    us_beta o = None ->
    In (t_model t) ["cm"; "cm_exp"] ->
    t_guess t = GStr nm ->
    In nm SpecGuess.binary_names ->
    SpecGuess.draws (v_rnd e) ->
    no_step t (u_report e g t o) ->
    u_tool e g t o = (o', None) ->
    exists x : nat -> R,
      us_x o' = Some x /\
      (forall i : nat,
       (i < un_n g)%nat ->
       nth i (un_dseq g) 0%nat <> 0%nat ->
       exists q : nat,
         SpecGuess.binary_start (SpecGuess.volume (un_dseq g) / 2) (v_rnd e q) nm (INR (nth i (un_dseq g) 0%nat))
           (x i)).
Proof. exact start_cm_named. Qed.
Print Assumptions C91_cm.
Example C91_cm_example :
  forall m meth,
  In m ["cm"; "cm_exp"]%string -> In meth descent_methods ->
  exists e tol o' r x, cold_u e path_net (cold m meth (GStr "uniform") AdjOther tol) o' r /\ us_x o' = Some x /\ forall i, (i < 3)%nat -> x i = / 2.
Proof. exact start_cm_case. Qed.

Theorem C91_ecm :
  forall (e : environment) (g : unet) (t : settings) (o o' : ustate) (nm : string),
    (0 < un_n g)%nat ->
    In (t_model t) ["ecm"; "ecm_exp"] ->
    SpecGuess.nonneg (un_n g) (un_str g) ->
    t_guess t = GStr nm ->
    In nm SpecGuess.weighted_names ->
    SpecGuess.draws (v_rnd e) ->
    no_step t (u_report e g t o) ->
    u_tool e g t o = (o', None) ->
    exists x y : nat -> R,
      us_x o' = Some x /\
      us_y o' = Some y /\
      (forall i : nat,
       (i < un_n g)%nat ->
       nth i (un_dseq g) 0%nat <> 0%nat ->
       un_str g i <> 0 ->
       SpecGuess.weighted_start (SpecGuess.volume (un_dseq g) / 2) (rsum (un_n g) (un_str g)) 
         (/ 1000) (v_rnd e i) (v_rnd e (i + un_n g)) nm (INR (nth i (un_dseq g) 0%nat)) 
         (un_str g i) (x i) (y i)).
Proof. exact start_ecm_named. Qed.
Print Assumptions C91_ecm.
Example C91_ecm_example :
  forall m meth,
  In m ["ecm"; "ecm_exp"]%string -> In meth descent_methods ->
  exists e tol o' r x y, cold_u e path_net (cold m meth (GStr "uniform") AdjOther tol) o' r /\ us_x o' = Some x /\ us_y o' = Some y /\ forall i, (i < 3)%nat -> x i = / 1000 /\ y i = / 1000.
Proof. exact start_ecm_case. Qed.

Theorem C91_crema :
  forall (e : environment) (g : unet) (t : settings) (o o' : ustate) (nm : string),
    In (t_model t) ["crema"; "crema-sparse"] ->
    SpecGuess.nonneg (un_n g) (un_str g) ->
    t_guess t = GStr nm ->
    no_step t (u_report e g t o) ->
    u_tool e g t o = (o', None) ->
    exists beta : nat -> R,
      us_beta o' = Some beta /\
      (forall i : nat,
       (i < un_n g)%nat ->
       un_str g i <> 0 -> rate_start (rsum (un_n g) (un_str g)) (v_rnd e i) nm (un_str g i) (beta i)).
Proof. exact start_crema_named. Qed.
Print Assumptions C91_crema.
Example C91_crema_example :
  forall meth,
  In meth descent_methods ->
  exists e tol o' r b, cold_u e path_net (cold "crema" meth (GStr "strengths_minor") (AdjMatrix path_adj) tol) o' r /\ us_beta o' = Some b /\ b 0%nat = / 3 /\ b 1%nat = / 6 /\ b 2%nat = / 4.
Proof. exact start_crema_case. Qed.

Theorem C91_dcm :
  forall (e : environment) (g : dnet) (t : settings) (o o' : dstate) (nm : string),
    (0 < dn_n g)%nat ->
    d_paired g ->
    ds_bo o = None ->
    In (t_model t) ["dcm"; "dcm_exp"] ->
    t_guess t = GStr nm ->
    In nm SpecGuess.binary_names ->
    SpecGuess.draws (v_rnd e) ->
    SpecGuess.balanced (dn_out g) (dn_in g) ->
    no_step t (d_report e g t o) ->
    d_tool e g t o = (o', None) ->
    exists x y : nat -> R,
      ds_x o' = Some x /\
      ds_y o' = Some y /\
      (forall i : nat,
       (i < dn_n g)%nat ->
       (nth i (dn_out g) 0%nat <> 0%nat ->
        exists q : nat,
          SpecGuess.binary_start (SpecGuess.volume (dn_out g)) (v_rnd e q) nm (INR (nth i (dn_out g) 0%nat)) (x i)) /\
       (nth i (dn_in g) 0%nat <> 0%nat ->
        exists q : nat,
          SpecGuess.binary_start (SpecGuess.volume (dn_out g)) (v_rnd e q) nm (INR (nth i (dn_in g) 0%nat)) (y i))).
Proof. exact start_dcm_named. Qed.
Print Assumptions C91_dcm.
Example C91_dcm_example :
  forall m meth,
  In m ["dcm"; "dcm_exp"]%string -> In meth descent_methods ->
  exists e tol o' r x y, cold_d e chain_net (cold m meth (GStr "uniform") AdjOther tol) o' r /\ ds_x o' = Some x /\ ds_y o' = Some y /\
    x 0%nat = / 2 /\ x 1%nat = / 2 /\ y 1%nat = / 2 /\ y 2%nat = / 2.
Proof. exact start_dcm_case. Qed.

Theorem C91_decm :
  forall (e : environment) (g : dnet) (t : settings) (o o' : dstate) (nm : string),
    In (t_model t) ["decm"; "decm_exp"] ->
    SpecGuess.nonneg (dn_n g) (dn_sout g) ->
    SpecGuess.nonneg (dn_n g) (dn_sin g) ->
    t_guess t = GStr nm ->
    In nm SpecGuess.weighted_names ->
    SpecGuess.draws (v_rnd e) ->
    no_step t (d_report e g t o) ->
    d_tool e g t o = (o', None) ->
    let u := if t_model t =? "decm" then 9 / 10 else / 10 in
    exists x y bo bi : nat -> R,
      ds_x o' = Some x /\
      ds_y o' = Some y /\
      ds_bo o' = Some bo /\
      ds_bi o' = Some bi /\
      (forall i : nat,
       (i < dn_n g)%nat ->
       (nth i (dn_out g) 0%nat <> 0%nat ->
        dn_sout g i <> 0 ->
        SpecGuess.weighted_start (SpecGuess.volume (dn_out g)) (rsum (dn_n g) (dn_sout g)) u 
          (v_rnd e i) (v_rnd e (i + 2 * dn_n g)) nm (INR (nth i (dn_out g) 0%nat)) (dn_sout g i) 
          (x i) (bo i)) /\
       (nth i (dn_in g) 0%nat <> 0%nat ->
        dn_sin g i <> 0 ->
        SpecGuess.weighted_start (SpecGuess.volume (dn_out g)) (rsum (dn_n g) (dn_sin g)) u 
          (v_rnd e (i + dn_n g)) (v_rnd e (i + 3 * dn_n g)) nm (INR (nth i (dn_in g) 0%nat)) 
          (dn_sin g i) (y i) (bi i))).
Proof. exact start_decm_named. Qed.
Print Assumptions C91_decm.
Example C91_decm_example :
  forall m meth,
  In m ["decm"; "decm_exp"]%string -> In meth descent_methods ->
  exists e tol o' r x bo, cold_d e tri_net (cold m meth (GStr "uniform") AdjOther tol) o' r /\ ds_x o' = Some x /\ ds_bo o' = Some bo /\
    forall i, (i < 3)%nat -> x i = bo i /\ bo i = if String.eqb m "decm" then 9 / 10 else / 10.
Proof. exact start_decm_case. Qed.

Theorem C91_crema_directed :
  forall (e : environment) (g : dnet) (t : settings) (o o' : dstate) (nm : string),
    In (t_model t) ["crema"; "crema-sparse"] ->
    SpecGuess.nonneg (dn_n g) (dn_sout g) ->
    SpecGuess.nonneg (dn_n g) (dn_sin g) ->
    t_guess t = GStr nm ->
    no_step t (d_report e g t o) ->
    d_tool e g t o = (o', None) ->
    exists bo bi : nat -> R,
      ds_bo o' = Some bo /\
      ds_bi o' = Some bi /\
      (forall i : nat,
       (i < dn_n g)%nat ->
       (dn_sout g i <> 0 -> rate_start (rsum (dn_n g) (dn_sout g)) (v_rnd e i) nm (dn_sout g i) (bo i)) /\
       (dn_sin g i <> 0 -> rate_start (rsum (dn_n g) (dn_sin g)) (v_rnd e (i + dn_n g)) nm (dn_sin g i) (bi i))).
Proof. exact start_crema_dir_named. Qed.
Print Assumptions C91_crema_directed.
Example C91_crema_directed_example :
  forall meth,
  In meth descent_methods ->
  exists e tol o' r bo bi, cold_d e tri_net (cold "crema" meth (GStr "strengths") (AdjMatrix tri_adj) tol) o' r /\ ds_bo o' = Some bo /\ ds_bi o' = Some bi /\
    forall i, (i < 3)%nat -> bo i = / 10 /\ bi i = / 10.
Proof. exact start_crema_dir_case. Qed.

(** C92: after a call that reached its tolerance, a second call starting from its solution
    completes without a step, reaches its tolerance and leaves the same solution. *)
Theorem C92_cm :
  forall (e : environment) (g : unet) (t : settings) (o o' : ustate) (r : report) (x a : nat -> R)
      (e2 : environment) (t2 : settings) (o2 : ustate),
    (0 < un_n g)%nat ->
    us_beta o = None ->
    In (t_model t) ["cm"; "cm_exp"] ->
    In (t_method t) descent_methods ->
    (forall i : nat, (i < un_n g)%nat -> nth i (un_dseq g) 0%nat <> 0%nat) ->
    u_tool e g t o = (o', None) ->
    u_report e g t o = Some r ->
    tolerance_reached (t_tol t) r ->
    us_x o' = Some x ->
    resumes t t2 ->
    us_beta o2 = None ->
    t_guess t2 = GArr (un_n g) a ->
    (forall i : nat, (i < un_n g)%nat -> stands_for (t_model t =? "cm_exp") (a i) (x i)) ->
    exists (o2' : ustate) (r2 : report) (x2 : nat -> R),
      u_tool e2 g t2 o2 = (o2', None) /\
      u_report e2 g t2 o2 = Some r2 /\
      r_steps r2 = 0%nat /\ us_x o2' = Some x2 /\ (forall i : nat, (i < un_n g)%nat -> x2 i = x i).
Proof. exact restart_cm. Qed.
Print Assumptions C92_cm.
Example C92_cm_example :
  forall m meth,
  In m ["cm"; "cm_exp"]%string -> In meth descent_methods ->
  exists e tol o' r x a, let t2 := cold m meth (GArr 3 a) AdjOther tol in
    cold_u e path_net (cold m meth (GStr "uniform") AdjOther tol) o' r /\ us_x o' = Some x /\ (forall i, (i < 3)%nat -> stands_for (String.eqb m "cm_exp") (a i) (x i)) /\
    exists o2 x2, u_tool e path_net t2 (u_fresh false) = (o2, None) /\ us_x o2 = Some x2 /\ forall i, (i < 3)%nat -> x2 i = / 2.
Proof. exact restart_cm_case. Qed.

Theorem C92_ecm :
  forall (e : environment) (g : unet) (t : settings) (o o' : ustate) (r : report) (x y a : nat -> R)
      (e2 : environment) (t2 : settings) (o2 : ustate),
    (0 < un_n g)%nat ->
    In (t_model t) ["ecm"; "ecm_exp"] ->
    In (t_method t) descent_methods ->
    (forall i : nat, (i < un_n g)%nat -> nth i (un_dseq g) 0%nat <> 0%nat /\ un_str g i <> 0) ->
    u_tool e g t o = (o', None) ->
    u_report e g t o = Some r ->
    tolerance_reached (t_tol t) r ->
    us_x o' = Some x ->
    us_y o' = Some y ->
    resumes t t2 ->
    us_beta o2 = None ->
    t_guess t2 = GArr (2 * un_n g) a ->
    (forall i : nat,
     (i < un_n g)%nat ->
     stands_for (t_model t =? "ecm_exp") (a i) (x i) /\
     stands_for (t_model t =? "ecm_exp") (a (i + un_n g)%nat) (y i)) ->
    exists (o2' : ustate) (r2 : report) (x2 y2 : nat -> R),
      u_tool e2 g t2 o2 = (o2', None) /\
      u_report e2 g t2 o2 = Some r2 /\
      r_steps r2 = 0%nat /\
      us_x o2' = Some x2 /\ us_y o2' = Some y2 /\ (forall i : nat, (i < un_n g)%nat -> x2 i = x i /\ y2 i = y i).
Proof. exact restart_ecm. Qed.
Print Assumptions C92_ecm.
Example C92_ecm_example :
  forall m meth,
  In m ["ecm"; "ecm_exp"]%string -> In meth descent_methods ->
  exists e tol o' r x y a, let t2 := cold m meth (GArr 6 a) AdjOther tol in
    cold_u e path_net (cold m meth (GStr "uniform") AdjOther tol) o' r /\ us_x o' = Some x /\ us_y o' = Some y /\
    exists o2 x2 y2, u_tool e path_net t2 (u_fresh false) = (o2, None) /\ us_x o2 = Some x2 /\ us_y o2 = Some y2 /\ forall i, (i < 3)%nat -> x2 i = / 1000 /\ y2 i = / 1000.
Proof. exact restart_ecm_case. Qed.

Theorem C92_crema :
  forall (e : environment) (g : unet) (t : settings) (o o' : ustate) (r : report) (p : nat -> nat -> R)
      (beta a : nat -> R) (e2 : environment) (t2 : settings) (o2 : ustate),
    t_model t = "crema" ->
    In (t_method t) descent_methods ->
    hollow p ->
    t_adjacency t = AdjMatrix p ->
    t_adjacency t2 = AdjMatrix p ->
    u_tool e g t o = (o', None) ->
    u_report e g t o = Some r ->
    tolerance_reached (t_tol t) r ->
    us_beta o' = Some beta ->
    (forall i : nat, (i < un_n g)%nat -> un_str g i = 0 -> beta i = 0) ->
    positive_rates (un_n g) p beta ->
    resumes t t2 ->
    t_guess t2 = GArr (un_n g) a ->
    (forall i : nat, (i < un_n g)%nat -> a i = beta i) ->
    exists (o2' : ustate) (r2 : report) (beta2 : nat -> R),
      u_tool e2 g t2 o2 = (o2', None) /\
      u_report e2 g t2 o2 = Some r2 /\
      r_steps r2 = 0%nat /\ us_beta o2' = Some beta2 /\ (forall i : nat, (i < un_n g)%nat -> beta2 i = beta i).
Proof. exact restart_crema. Qed.
Print Assumptions C92_crema.
Example C92_crema_example :
  forall meth,
  In meth descent_methods ->
  exists e tol o' r b o2 b2, cold_u e path_net (cold "crema" meth (GStr "strengths_minor") (AdjMatrix path_adj) tol) o' r /\ us_beta o' = Some b /\
    u_tool e path_net (cold "crema" meth (GArr 3 b) (AdjMatrix path_adj) tol) o' = (o2, None) /\ us_beta o2 = Some b2 /\ forall i, (i < 3)%nat -> b2 i = b i.
Proof. exact restart_crema_case. Qed.

Theorem C92_dcm :
  forall (e : environment) (g : dnet) (t : settings) (o o' : dstate) (r : report) (x y a : nat -> R)
      (e2 : environment) (t2 : settings) (o2 : dstate),
    (0 < dn_n g)%nat ->
    d_paired g ->
    ds_bo o = None ->
    In (t_model t) ["dcm"; "dcm_exp"] ->
    In (t_method t) descent_methods ->
    d_tool e g t o = (o', None) ->
    d_report e g t o = Some r ->
    tolerance_reached (t_tol t) r ->
    ds_x o' = Some x ->
    ds_y o' = Some y ->
    resumes t t2 ->
    ds_bo o2 = None ->
    t_guess t2 = GArr (2 * dn_n g) a ->
    (forall i : nat, (i < dn_n g)%nat -> a i = x i /\ a (i + dn_n g)%nat = y i) ->
    exists (o2' : dstate) (r2 : report) (x2 y2 : nat -> R),
      d_tool e2 g t2 o2 = (o2', None) /\
      d_report e2 g t2 o2 = Some r2 /\
      r_steps r2 = 0%nat /\
      ds_x o2' = Some x2 /\
      ds_y o2' = Some y2 /\
      (forall i : nat,
       (i < dn_n g)%nat ->
       (nth i (dn_out g) 0%nat <> 0%nat -> x2 i = x i) /\ (nth i (dn_in g) 0%nat <> 0%nat -> y2 i = y i)).
Proof. exact restart_dcm. Qed.
Print Assumptions C92_dcm.
Example C92_dcm_example :
  forall m meth,
  In m ["dcm"; "dcm_exp"]%string -> In meth descent_methods ->
  exists e tol o' r x y o2 x2 y2, let a := fun i => if Nat.ltb i 3 then x i else y (i - 3)%nat in
    cold_d e chain_net (cold m meth (GStr "uniform") AdjOther tol) o' r /\ ds_x o' = Some x /\ ds_y o' = Some y /\
    d_tool e chain_net (cold m meth (GArr 6 a) AdjOther tol) (d_fresh false) = (o2, None) /\ ds_x o2 = Some x2 /\ ds_y o2 = Some y2 /\
    x2 0%nat = / 2 /\ x2 1%nat = / 2 /\ y2 1%nat = / 2 /\ y2 2%nat = / 2.
Proof. exact restart_dcm_case. Qed.

Theorem C92_decm :
  forall (e : environment) (g : dnet) (t : settings) (o o' : dstate) (r : report) (x y bo bi a : nat -> R)
      (e2 : environment) (t2 : settings) (o2 : dstate),
    In (t_model t) ["decm"; "decm_exp"] ->
    In (t_method t) descent_methods ->
    (forall i : nat,
     (i < dn_n g)%nat ->
     nth i (dn_out g) 0%nat <> 0%nat /\ nth i (dn_in g) 0%nat <> 0%nat /\ dn_sout g i <> 0 /\ dn_sin g i <> 0) ->
    d_tool e g t o = (o', None) ->
    d_report e g t o = Some r ->
    tolerance_reached (t_tol t) r ->
    ds_x o' = Some x ->
    ds_y o' = Some y ->
    ds_bo o' = Some bo ->
    ds_bi o' = Some bi ->
    resumes t t2 ->
    ds_bo o2 = None ->
    t_guess t2 = GArr (4 * dn_n g) a ->
    (forall i : nat,
     (i < dn_n g)%nat ->
     a i = x i /\ a (i + dn_n g)%nat = y i /\ a (i + 2 * dn_n g)%nat = bo i /\ a (i + 3 * dn_n g)%nat = bi i) ->
    exists (o2' : dstate) (r2 : report) (x2 y2 bo2 bi2 : nat -> R),
      d_tool e2 g t2 o2 = (o2', None) /\
      d_report e2 g t2 o2 = Some r2 /\
      r_steps r2 = 0%nat /\
      ds_x o2' = Some x2 /\
      ds_y o2' = Some y2 /\
      ds_bo o2' = Some bo2 /\
      ds_bi o2' = Some bi2 /\
      (forall i : nat, (i < dn_n g)%nat -> x2 i = x i /\ y2 i = y i /\ bo2 i = bo i /\ bi2 i = bi i).
Proof. exact restart_decm. Qed.
Print Assumptions C92_decm.
Example C92_decm_example :
  forall m meth,
  In m ["decm"; "decm_exp"]%string -> In meth descent_methods ->
  exists e tol o' r x y bo bi o2 x2, let a := fun i => if Nat.ltb i 3 then x i else if Nat.ltb i 6 then y (i - 3)%nat else if Nat.ltb i 9 then bo (i - 6)%nat else bi (i - 9)%nat in
    cold_d e tri_net (cold m meth (GStr "uniform") AdjOther tol) o' r /\ ds_x o' = Some x /\ ds_y o' = Some y /\ ds_bo o' = Some bo /\ ds_bi o' = Some bi /\
    d_tool e tri_net (cold m meth (GArr 12 a) AdjOther tol) (d_fresh false) = (o2, None) /\ ds_x o2 = Some x2 /\ forall i, (i < 3)%nat -> x2 i = x i.
Proof. exact restart_decm_case. Qed.

Theorem C92_crema_directed :
  forall (e : environment) (g : dnet) (t : settings) (o o' : dstate) (r : report) (p : nat -> nat -> R)
      (bo bi a : nat -> R) (e2 : environment) (t2 : settings) (o2 : dstate),
    t_model t = "crema" ->
    In (t_method t) descent_methods ->
    t_adjacency t = AdjMatrix p ->
    t_adjacency t2 = AdjMatrix p ->
    d_tool e g t o = (o', None) ->
    d_report e g t o = Some r ->
    tolerance_reached (t_tol t) r ->
    ds_bo o' = Some bo ->
    ds_bi o' = Some bi ->
    (forall i : nat, (i < dn_n g)%nat -> (dn_sout g i = 0 -> bo i = 0) /\ (dn_sin g i = 0 -> bi i = 0)) ->
    positive_rates_dir (dn_n g) p bo bi ->
    resumes t t2 ->
    t_guess t2 = GArr (2 * dn_n g) a ->
    (forall i : nat, (i < dn_n g)%nat -> a i = bo i /\ a (i + dn_n g)%nat = bi i) ->
    exists (o2' : dstate) (r2 : report) (bo2 bi2 : nat -> R),
      d_tool e2 g t2 o2 = (o2', None) /\
      d_report e2 g t2 o2 = Some r2 /\
      r_steps r2 = 0%nat /\
      ds_bo o2' = Some bo2 /\
      ds_bi o2' = Some bi2 /\ (forall i : nat, (i < dn_n g)%nat -> bo2 i = bo i /\ bi2 i = bi i).
Proof. exact restart_crema_dir. Qed.
Print Assumptions C92_crema_directed.
Example C92_crema_directed_example :
  forall meth,
  In meth descent_methods ->
  exists e tol o' r bo bi o2 bo2 bi2, let a := fun i => if Nat.ltb i 3 then bo i else bi (i - 3)%nat in
    cold_d e tri_net (cold "crema" meth (GStr "strengths") (AdjMatrix tri_adj) tol) o' r /\ ds_bo o' = Some bo /\ ds_bi o' = Some bi /\
    d_tool e tri_net (cold "crema" meth (GArr 6 a) (AdjMatrix tri_adj) tol) o' = (o2, None) /\ ds_bo o2 = Some bo2 /\ ds_bi o2 = Some bi2 /\ forall i, (i < 3)%nat -> bo2 i = / 10 /\ bi2 i = / 10.
Proof. exact restart_crema_dir_case. Qed.

(** The factors themselves are not accepted as a starting point of [cm_exp] and [ecm_exp]. *)
Theorem C92_cm_exp_factors_refuted :
  exists e g t o' r x t2 o2 x2,
  u_tool e g t (u_fresh false) = (o', None) /\ u_report e g t (u_fresh false) = Some r /\ tolerance_reached (t_tol t) r /\ us_x o' = Some x /\
  t_model t = "cm_exp"%string /\ resumes t t2 /\ t_guess t2 = GArr (un_n g) x /\ t_max_steps t2 = O /\
  u_tool e g t2 (u_fresh false) = (o2, None) /\ us_x o2 = Some x2 /\ (0 < un_n g)%nat /\ forall i, (i < un_n g)%nat -> x2 i <> x i.
Proof. exact again_cm_exp_refuted. Qed.
Print Assumptions C92_cm_exp_factors_refuted.

Theorem C92_ecm_exp_factors_refuted :
  exists e g t o' r x y t2 a o2 x2 y2,
  u_tool e g t (u_fresh false) = (o', None) /\ u_report e g t (u_fresh false) = Some r /\ tolerance_reached (t_tol t) r /\ us_x o' = Some x /\ us_y o' = Some y /\
  t_model t = "ecm_exp"%string /\ resumes t t2 /\ t_guess t2 = GArr (2 * un_n g) a /\ (forall i, (i < un_n g)%nat -> a i = x i /\ a (i + un_n g)%nat = y i) /\ t_max_steps t2 = O /\
  u_tool e g t2 (u_fresh false) = (o2, None) /\ us_x o2 = Some x2 /\ us_y o2 = Some y2 /\ (0 < un_n g)%nat /\ forall i, (i < un_n g)%nat -> x2 i <> x i /\ y2 i <> y i.
Proof. exact again_ecm_exp_refuted. Qed.
Print Assumptions C92_ecm_exp_factors_refuted.
