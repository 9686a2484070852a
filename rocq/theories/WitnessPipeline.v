(** A directed network that meets the hypotheses of the theorems on solving and sampling. *)
From Coq Require Import Reals List Arith Bool ZArith String Lia Lra.
From Verif Require Import Base SpecGraph SpecDirected SpecEnsemble SpecNetwork SpecLife SpecLinsearch SpecSolver SpecDispatch SpecGuess SpecRun SpecSolve SpecTool SpecReach SpecReachTool
  ModelCM ModelDCM ModelNetwork ModelLife ModelSolver ModelDispatch ModelGuess ModelRun ModelSolve ModelTool ModelObject SpecObject.
From Verif Require Import ProofsReachTool ProofsReachObject WitnessObject WitnessReachTool.
Import ListNotations.
Local Open Scope R_scope.

(** 0 <-> 1, 1 -> 2, 2 -> 0. *)
Definition three_ring (i j : nat) : R := nth (3 * i + j) [0; 1; 0; 1; 0; 1; 1; 0; 0] 0.
Lemma three_ring_rows : row_degrees 3 three_ring = map INR [1; 2; 1]%nat /\ col_degrees 3 three_ring = map INR [2; 1; 1]%nat.
Proof. split; unfold row_degrees, col_degrees, three_ring, count; decide_entry; reflexivity. Qed.
Lemma three_ring_meets : exists ds e, (0 < 3)%nat /\ INR 3 <= 10 ^ 21 /\ nonneg_matrix 3 three_ring /\ (forall i, (i < 3)%nat -> three_ring i i = 0) /\
  (forall i, (i < 3)%nat -> 0 < deg 3 (links three_ring) i /\ 0 < indeg 3 (links three_ring) i) /\
  distinct (combine (row_degrees 3 three_ring) (col_degrees 3 three_ring)) ds /\ sound_numpy (2 * List.length ds) e /\
  forall meth nm tol M eps, In meth descent_methods -> exists t, exp_call "dcm_exp" nm e tol M eps t /\ t_method t = meth.
Proof.
  destruct (numpy_exists 6) as (e & HN & HT). exists [(INR 1, INR 2); (INR 2, INR 1); (INR 1, INR 1)], e. split; [lia|]. split; [simpl; lra|]. split.
  { intros i j _ _. unfold three_ring. generalize (3 * i + j)%nat as q. intros q. do 9 (destruct q as [|q]; [cbn; lra|]). destruct q; cbn; lra. }
  split. { intros i Hi. do 3 (destruct i as [|i]; [reflexivity|]). lia. }
  destruct three_ring_rows as [ER EC]. split.
  { intros i Hi. rewrite <- (row_deg 3 three_ring _ i (eq_sym ER) Hi), <- (col_deg 3 three_ring _ i (eq_sym EC) Hi). do 3 (destruct i as [|i]; [unfold at_list; cbn; lra|]). lia. }
  split; [|split; [exact HN|intros; apply HT; assumption]].
  rewrite ER, EC. split; [cbn; repeat constructor; cbn; intros Q; repeat (destruct Q as [Q|Q]; [inversion Q; lra|]); exact Q|]. intros v. cbn. tauto.
Qed.
