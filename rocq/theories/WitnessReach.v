(** Networks that meet the conditions under which a run is bound to reach its tolerance. *)
From Coq Require Import Reals List Arith Bool String Lia Lra.
From Verif Require Import Base SpecGraph SpecDirected SpecLinsearch SpecSolver SpecDispatch SpecRun SpecReach ModelCM ModelDCM ModelSolver ModelDispatch ModelRun
  ProofsReachNet WitnessRun.
Import ListNotations.
Local Open Scope R_scope.

(** The cycle of four nodes, and the directed one. *)
Definition cycle4 (i j : nat) : bool := orb (Nat.eqb (Nat.modulo (i + 1) 4) j) (Nat.eqb (Nat.modulo (j + 1) 4) i).
Definition dcycle4 (i j : nat) : bool := Nat.eqb (Nat.modulo (i + 1) 4) j.
Ltac four i := destruct i as [|[|[|[|i]]]]; [| | | |exfalso; lia].
Lemma four_classes : classes 4 1 (fun _ => 0%nat) ring_c.
Proof. split; [intros; lia|]. intros q Hq. replace q with 0%nat by lia. unfold ring_c. cbn. unfold ind. ring. Qed.
Lemma four_inhabited : inhabited_classes 4 1 (fun _ => 0%nat).
Proof. intros q Hq. exists 0%nat. split; lia. Qed.
Lemma four_options me : sqrt (INR 1) < 2 ^ 48 * o_regularise_eps (run_opt me) /\ sqrt (INR 2) < 2 ^ 48 * o_regularise_eps (run_opt me).
Proof.
  unfold run_opt. cbn [o_regularise_eps]. replace (2 ^ 48) with 281474976710656 by (simpl; ring). split.
  - replace (INR 1) with 1 by reflexivity. rewrite sqrt_1. lra.
  - replace (INR 2) with 2 by (simpl; ring). assert (Hs : 0 < sqrt 2 < 2).
    { split; [apply sqrt_lt_R0; lra|]. rewrite <- (sqrt_Rsqr 2) at 2 by lra. apply sqrt_lt_1; unfold Rsqr; lra. }
    lra.
Qed.
(** The number of parameters is never the obstacle: at the value of [regularise_eps] that
    [solve_tool] passes, the condition holds for up to 10^22 parameters. *)
Lemma any_size m : INR m <= 10 ^ 22 -> sqrt (INR m) < 2 ^ 48 * / 1000.
Proof.
  intros H. replace (2 ^ 48) with 281474976710656 by (simpl; ring). apply Rle_lt_trans with (10 ^ 11); [|simpl; lra].
  replace (10 ^ 11) with (sqrt (10 ^ 22)); [apply sqrt_le_1; [apply pos_INR|simpl; lra|exact H]|].
  replace (10 ^ 22) with (10 ^ 11 * 10 ^ 11) by (rewrite <- pow_add; reflexivity). apply sqrt_square. simpl. lra.
Qed.
Lemma cycle_meets meth : In meth descent_methods ->
  (exists linsolve eigh, linear_solver 1 linsolve /\ solves_definite 1 linsolve /\ eigen_solver 1 eigh) /\ documented (run_opt (method_of_string meth)) meth /\
  simple_graph 4 cycle4 /\ classes 4 1 (fun _ => 0%nat) ring_c /\ inhabited_classes 4 1 (fun _ => 0%nat) /\ (forall i, (i < 4)%nat -> ring_k 0 = deg 4 cycle4 i) /\
  0 < o_tol (run_opt (method_of_string meth)) /\ sqrt (INR 1) < 2 ^ 48 * o_regularise_eps (run_opt (method_of_string meth)) /\
  eventually (fun M e => ample 1 12 (- loglikelihood_cm_exp 1 ring_k ring_c (fun _ => 0)) (with_budget (run_opt (method_of_string meth)) M e)).
Proof.
  intros Hm. split; [apply solvers_exist|]. split; [unfold documented, run_opt; cbn; repeat split; lra|]. split.
  { split; intros i; [intros j Hi Hj; four i; four j; reflexivity|intros Hi; four i; reflexivity]. }
  split; [exact four_classes|]. split; [exact four_inhabited|]. split.
  { intros i Hi. unfold ring_k, deg. four i; cbn; unfold ind; ring. }
  split; [cbn; lra|]. split; [apply four_options|].
  apply ample_eventually; try (cbn; lra); try reflexivity; [lia|]. apply four_options.
Qed.
Lemma dcycle_meets meth : In meth descent_methods ->
  (exists linsolve eigh, linear_solver 2 linsolve /\ solves_definite 2 linsolve /\ eigen_solver 2 eigh) /\ documented (run_opt (method_of_string meth)) meth /\
  loopless 4 dcycle4 /\ classes 4 1 (fun _ => 0%nat) ring_c /\ inhabited_classes 4 1 (fun _ => 0%nat) /\ nonzero_list 1 (fun _ => 1) [0%nat] /\
  (forall i, (i < 4)%nat -> 1 = deg 4 dcycle4 i) /\ (forall i, (i < 4)%nat -> 1 = indeg 4 dcycle4 i) /\
  0 < o_tol (run_opt (method_of_string meth)) /\ sqrt (INR 2) < 2 ^ 48 * o_regularise_eps (run_opt (method_of_string meth)) /\
  eventually (fun M e => ample 2 12 (- loglikelihood_dcm_exp 1 (fun _ => 1) (fun _ => 1) [0%nat] [0%nat] ring_c (fun _ => 0)) (with_budget (run_opt (method_of_string meth)) M e)).
Proof.
  intros Hm. split; [apply solvers_exist|]. split; [unfold documented, run_opt; cbn; repeat split; lra|]. split.
  { intros i Hi; four i; reflexivity. }
  split; [exact four_classes|]. split; [exact four_inhabited|]. split.
  { split; [constructor; [intros []|constructor]|]. intros i. split.
    - intros [<-|[]]. split; [lia|lra].
    - intros [Hi _]. left. lia. }
  split; [intros i Hi; unfold deg; four i; cbn; unfold ind; ring|]. split; [intros i Hi; unfold indeg; four i; cbn; unfold ind; ring|].
  split; [cbn; lra|]. split; [apply four_options|].
  apply ample_eventually; try (cbn; lra); try reflexivity; [lia|]. apply four_options.
Qed.
