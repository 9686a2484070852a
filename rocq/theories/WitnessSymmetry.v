(** Concrete cases and counterexamples for the symmetry theorems. *)
From Coq Require Import Reals List Arith Lia Lra Bool Permutation.
From Verif Require Import Base SpecGraph SpecEnsemble SpecDirected SpecNetwork SpecSymmetry SpecCReMa SpecWeighted.
From Verif Require Import ModelCM ModelDCM ModelDECM ModelCReMa.
From Verif Require Import ProofsRelabel ProofsAlike ProofsFixDCM ProofsECM ProofsDECM.
Local Open Scope R_scope.
Import ListNotations.

(** * Counterexamples *)

Definition hess_x (i : nat) : R := match i with O => 1 | _ => 2 end.
Lemma hessian_cm_order_refuted : exists n p k c x i j, relabelling n p /\ (forall q, (q < n)%nat -> 0 < x q /\ 0 < k q /\ c q = 1) /\
  (i < n)%nat /\ (j < n)%nat /\
  loglikelihood_hessian_cm n (fun q => k (p q)) (fun q => c (p q)) (fun q => x (p q)) i j
  <> loglikelihood_hessian_cm n k c x (p i) (p j).
Proof.
  exists 2%nat, (transpose 0 1), (fun _ => / 2), (fun _ => 1), hess_x, 0%nat, 1%nat.
  split; [apply transpose_relabelling; lia|]. split; [intros [|[|q]] Hq; simpl; lra || lia|]. split; [lia|]. split; [lia|].
  unfold loglikelihood_hessian_cm, hessian_cm_aux, transpose; simpl. lra.
Qed.

Definition tilt (r : nat) : R := if Nat.ltb r 2 then 0 else ln 2.
Lemma exp_tilt r : exp (- tilt r) = if Nat.ltb r 2 then 1 else / 2.
Proof.
  unfold tilt. destruct (Nat.ltb r 2); [rewrite Ropp_0; apply exp_0|]. rewrite exp_Ropp, exp_ln by lra. reflexivity.
Qed.
Lemma expected_out_dcm_exp_flip_refuted : exists n theta i, (i < n)%nat /\
  expected_out_degree_dcm_exp n (fun r => theta (flip n r)) i <> expected_in_degree_dcm_exp n theta i.
Proof.
  exists 2%nat, tilt, 0%nat. split; [lia|].
  unfold expected_out_degree_dcm_exp, expected_in_degree_dcm_exp. rewrite !loop_S, !loop_0. simpl. unfold flip; simpl.
  rewrite !exp_tilt. simpl. lra.
Qed.

(** Parameters: [a_out = 1], [a_in = b_out = b_in = 1/2]. *)
Lemma iterative_decm_exp_flip_refuted : exists n ko ki so si theta r, (r < 4 * n)%nat /\
  (forall i, (i < n)%nat -> 0 < ko i /\ 0 < ki i /\ 0 < so i /\ 0 < si i) /\
  iterative_decm_exp n ki ko si so (fun r => theta (flip n r)) r <> iterative_decm_exp n ko ki so si theta (flip n r).
Proof.
  exists 2%nat, (fun _ => 1), (fun _ => 1), (fun _ => 1), (fun _ => 1), tilt, 0%nat.
  split; [lia|]. split; [intros; lra|].
  unfold iterative_decm_exp, by_block, flip, pos, blk. simpl.
  destruct (Req_EM_T 1 0) as [E|_]; [lra|].
  rewrite !loop_S, !loop_0. simpl. rewrite !exp_tilt. simpl.
  set (a := 0 + 1 * _ / _). set (b := 0 + / 2 * _ / _).
  assert (Ea : a = 2 / 7) by (unfold a; field).
  assert (Eb : b = 1 / 7) by (unfold b; field).
  rewrite Ea, Eb. clear a b Ea Eb. unfold sdiv.
  destruct (Req_EM_T (2 / 7) 0) as [E|_]; [lra|]. destruct (Req_EM_T (1 / 7) 0) as [E|_]; [lra|].
  unfold sneglog, fneglog.
  destruct (Rlt_dec 0 (1 / (2 / 7))) as [_|N]; [|exfalso; apply N; lra].
  destruct (Rlt_dec 0 (1 / (1 / 7))) as [_|N]; [|exfalso; apply N; lra].
  intros E. injection E as E. apply Ropp_eq_compat in E. rewrite !Ropp_involutive in E. apply ln_inv in E; lra.
Qed.

(** Node 0 has no constraint, its parameters are not 0. *)
Definition but0 (i : nat) : R := match i with O => 0 | _ => 1 end.
Lemma hessian_diag_decm_flip_refuted : exists n ko ki so si x r, (r < 4 * n)%nat /\ decm_dom n x /\
  (forall i, (i < n)%nat -> (ko i = 0 <-> so i = 0) /\ (ki i = 0 <-> si i = 0)) /\
  loglikelihood_hessian_diag_decm n ki ko si so (fun r => x (flip n r)) r
  <> loglikelihood_hessian_diag_decm n ko ki so si x (flip n r).
Proof.
  exists 2%nat, but0, but0, but0, but0, (fun _ => / 2), 4%nat.
  split; [lia|]. split; [|split; [intros; tauto|]].
  - unfold decm_dom. repeat split; intros; lra.
  - unfold loglikelihood_hessian_diag_decm, by_block, flip, pos, blk. simpl.
    destruct (Req_EM_T 0 0) as [_|N]; [|lra]. rewrite !loop_S, !loop_0. simpl. lra.
Qed.

(** * Cases *)

Lemma swap_case : relabelling 3 (transpose 0 2) /\ transpose 0 2 0 = 2%nat /\
  renamed_list 3 (transpose 0 2) [0; 1]%nat [1; 2]%nat /\
  renamed_pairs (transpose 0 2) [(0%nat, 1%nat, 5); (1%nat, 2%nat, 7)] [(0%nat, 1%nat, 7); (1%nat, 2%nat, 5)] /\
  renamed_arcs (transpose 0 2) [(0%nat, 1%nat, 5)] [(2%nat, 1%nat, 5)] /\
  reversed_arcs [(0%nat, 1%nat, 5)] [(1%nat, 0%nat, 5)] /\
  flip 3 1 = 4%nat /\ flip 3 4 = 1%nat /\ flip 3 7 = 10%nat.
Proof.
  split; [apply transpose_relabelling; lia|]. split; [reflexivity|]. split.
  - unfold renamed_list, index_list. split; [|split].
    + split; [repeat constructor; simpl; intuition lia|]. intros i [<-|[<-|[]]]; lia.
    + split; [repeat constructor; simpl; intuition lia|]. intros i [<-|[<-|[]]]; lia.
    + intros [|[|[|i]]] Hi; try lia; unfold transpose; simpl; (split; intros H; intuition (try discriminate; auto)).
  - split; [|split; [|split; [|repeat split; reflexivity]]].
    + unfold renamed_pairs. cbn. apply perm_swap.
    + unfold renamed_arcs. cbn. reflexivity.
    + unfold reversed_arcs. cbn. reflexivity.
Qed.
Lemma order_case : (forall q, (q < 3)%nat -> 0 <= INR q + 1) /\ (0 < 3)%nat /\ (1 < 3)%nat /\ (2 < 3)%nat /\ 0 < INR 2 + 1 /\ INR 0 + 1 < INR 1 + 1 /\
  expected_degree_cm 3 (fun q => INR q + 1) 0 = 2 / 3 + 3 / 4 /\ expected_degree_cm 3 (fun q => INR q + 1) 1 = 2 / 3 + 6 / 7.
Proof.
  split; [intros q _; pose proof (pos_INR q); lra|]. repeat split; try lia; try (simpl; lra).
  - unfold expected_degree_cm. rewrite !loop_S, !loop_0. simpl. field.
  - unfold expected_degree_cm. rewrite !loop_S, !loop_0. simpl. field.
Qed.
(** Two nodes with one outgoing link each, two nodes with one incoming link each. *)
Lemma twins_dcm_case :
  nonzero_list 4 (fun i => bip4_out (bip4_cls i)) [0; 1]%nat /\ nonzero_list 4 (fun i => bip4_in (bip4_cls i)) [2; 3]%nat /\
  dcm_full 4 [0; 1]%nat [2; 3]%nat (expand 4 2 bip4_cls bip4_x) /\
  (forall i, (i < 4)%nat -> expected_out_degree_dcm 4 (expand 4 2 bip4_cls bip4_x) i = bip4_out (bip4_cls i) /\
     expected_in_degree_dcm 4 (expand 4 2 bip4_cls bip4_x) i = bip4_in (bip4_cls i)) /\
  bip4_out (bip4_cls 2) = bip4_out (bip4_cls 3).
Proof.
  assert (N : forall a b k, (a < b)%nat -> (b < 4)%nat -> (forall i, (i < 4)%nat -> (k i <> 0 <-> i = a \/ i = b)) -> nonzero_list 4 k [a; b]).
  { intros a b k Hab Hb H. split; [repeat constructor; simpl; intuition lia|]. intros i. simpl. split.
    - intros [<-|[<-|[]]]; (split; [lia|]); apply H; auto; lia.
    - intros [Hi Hk]. apply H in Hk; [|exact Hi]. destruct Hk; auto. }
  split; [|split; [|split; [|split; [exact bip4_solution|reflexivity]]]].
  - apply N; [lia|lia|]. intros [|[|[|[|i]]]] Hi; try lia; unfold bip4_out, bip4_cls; simpl; (split; intros H; try lia; try lra; auto).
  - apply N; [lia|lia|]. intros [|[|[|[|i]]]] Hi; try lia; unfold bip4_in, bip4_cls; simpl; (split; intros H; try lia; try lra; auto).
  - repeat split.
    + intros i [<-|[<-|[]]]; unfold expand, bip4_x, bip4_cls; simpl; lra.
    + intros i [<-|[<-|[]]]; unfold expand, bip4_x, bip4_cls; simpl; lra.
    + intros [|[|[|[|i]]]] Hi Q; try lia; unfold expand, bip4_x, bip4_cls; simpl; try lra; exfalso; apply Q; simpl; auto.
    + intros [|[|[|[|i]]]] Hi Q; try lia; unfold expand, bip4_x, bip4_cls; simpl; try lra; exfalso; apply Q; simpl; auto.
Qed.
