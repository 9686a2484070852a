(** Concrete calls of [ensemble_sampler] that meet the hypotheses of ProofsSamples. *)
From Coq Require Import Reals List Arith Bool ZArith Permutation String Lia Lra.
From Coquelicot Require Import Coquelicot.
From Verif Require Import Base SpecGraph SpecWeighted ModelDCM ModelSampler SpecSampler ProofsSampler ProofsMainSampler ProofsSamplerFiles WitnessSampler SpecSamples ProofsSamples.
Import ListNotations.
Local Open Scope R_scope.

Notation gen0 := (inv_gen (1 / 4, 1 / 2)).
Notation start0 := ((1 / 4, 1 / 2) : gstate gen0).
Notation three0 := (fun _ : nat => reverse_choice (1 / 4, 1 / 2)).
Notation two0 := (fun _ : nat => two_tasks (1 / 4, 1 / 2)).
Definition made (m : string) (x y bo bi : list R) (given : bool) (a : crema_adjacency) : solved :=
  {| v_last_model := m; v_x := x; v_y := y; v_b_out := bo; v_b_in := bi; v_adjacency_given := given; v_adjacency_crema := a |}.
Definition no_adj : crema_adjacency := OneArray [].

Lemma three_valid t : valid_choice gen0 2 3 (three0 t).
Proof. apply reverse_choice_valid. Qed.
Lemma two_valid t : valid_choice gen0 1 2 (two0 t).
Proof. apply two_tasks_valid. Qed.
Lemma below3 i j : (i < j < 3)%nat -> (i, j) = (0, 1)%nat \/ (i, j) = (0, 2)%nat \/ (i, j) = (1, 2)%nat.
Proof. intros H. destruct i as [|[|i]], j as [|[|[|j]]]; try lia; auto. Qed.
Lemma apart2 i j : (i < 2)%nat -> (j < 2)%nat -> i <> j -> (i, j) = (0, 1)%nat \/ (i, j) = (1, 0)%nat.
Proof. intros H H1 H2. destruct i as [|[|i]], j as [|[|j]]; try lia; auto. Qed.

(** Two files of three0 nodes. *)
Lemma files_cm_case : ensemble_sampler gen0 false (made "cm" [1; 2; 1] [] [] [] false no_adj) 2 2 "s/" (Some 7%Z) start0 three0 =
  Some [("s/0.txt"%string, Unweighted [(0, 1); (0, 2); (1, 2)]%nat); ("s/1.txt"%string, Unweighted [(0, 1); (0, 2); (1, 2)]%nat)].
Proof.
  rewrite (sampler_cm gen0 _ 2 2 "s/" (Some 7%Z) start0 three0 start0 (inv_gen_contract _)).
  - unfold files_of, outcomes, pair_states, bare_outcome, lt_pairs, p_binary, mul2, made. cbn. rewrite cl_id by lra.
    repeat match goal with |- context [Rlt_dec ?a ?b] => destruct (Rlt_dec a b); [|lra] end. reflexivity.
  - left. reflexivity.
  - intros i j H. apply below3 in H. unfold mul2, made. destruct H as [H|[H|H]]; injection H as -> ->; cbn; lra.
  - exact three_valid.
  - reflexivity.
Qed.
Lemma files_ecm_case : ensemble_sampler gen0 false (made "ecm" [1; 2; 1] [1 / 2; 1 / 2; 1 / 3] [] [] false no_adj) 2 2 "s/" (Some 7%Z) start0 three0 =
  Some (files_of gen0 "s/" 2 start0 IntWeighted
    (int_outcome gen0 (p_enh (mul2 [1; 2; 1] [1; 2; 1]) (mul2 [1 / 2; 1 / 2; 1 / 3] [1 / 2; 1 / 2; 1 / 3])) (mul2 [1 / 2; 1 / 2; 1 / 3] [1 / 2; 1 / 2; 1 / 3])) (lt_pairs 3)).
Proof.
  apply (sampler_ecm gen0 (made "ecm" [1; 2; 1] [1 / 2; 1 / 2; 1 / 3] [] [] false no_adj) 2 2 "s/" (Some 7%Z) start0 three0 start0 (inv_gen_contract _)).
  - left. reflexivity.
  - reflexivity.
  - intros i j H. apply below3 in H. unfold mul2, made. destruct H as [H|[H|H]]; injection H as -> ->; cbn; lra.
  - exact three_valid.
  - reflexivity.
Qed.
Lemma files_dcm_case : ensemble_sampler gen0 true (made "dcm" [1; 1 / 4] [1; 2] [] [] false no_adj) 1 1 "s/" (Some 7%Z) start0 two0 =
  Some [("s/0.txt"%string, Unweighted [(0, 1)]%nat)].
Proof.
  rewrite (sampler_dcm gen0 _ 1 1 "s/" (Some 7%Z) start0 two0 start0 (inv_gen_contract _)).
  - unfold files_of, outcomes, pair_states, bare_outcome, neq_pairs, p_binary, mul2, made. cbn. rewrite cl_id by lra.
    destruct (Rlt_dec _ _); [|lra]. destruct (Rlt_dec _ _); [lra|]. reflexivity.
  - left. reflexivity.
  - reflexivity.
  - intros i j H H1 H2. destruct (apart2 i j H H1 H2) as [E|E]; injection E as -> ->; unfold mul2, made; cbn; lra.
  - exact two_valid.
  - reflexivity.
Qed.
Lemma files_decm_case : ensemble_sampler gen0 true (made "decm" [1; 3] [1; 2] [1 / 2; 1 / 3] [1 / 4; 1 / 5] false no_adj) 1 1 "s/" (Some 7%Z) start0 two0 =
  Some (files_of gen0 "s/" 1 start0 IntWeighted
    (int_outcome gen0 (p_enh (mul2 [1; 3] [1; 2]) (mul2 [1 / 2; 1 / 3] [1 / 4; 1 / 5])) (mul2 [1 / 2; 1 / 3] [1 / 4; 1 / 5])) (neq_pairs 2)).
Proof.
  apply (sampler_decm gen0 (made "decm" [1; 3] [1; 2] [1 / 2; 1 / 3] [1 / 4; 1 / 5] false no_adj) 1 1 "s/" (Some 7%Z) start0 two0 start0 (inv_gen_contract _)).
  - left. reflexivity.
  - reflexivity.
  - reflexivity.
  - reflexivity.
  - intros i j H H1 H2. destruct (apart2 i j H H1 H2) as [E|E]; injection E as -> ->; unfold mul2, made; cbn; lra.
  - exact two_valid.
  - reflexivity.
Qed.
Lemma in3 (P : nat -> nat -> Prop) : P 0%nat 1%nat -> P 0%nat 2%nat -> P 1%nat 2%nat -> forall i j, In (i, j) (combine [0; 0; 1] [1; 2; 2])%nat -> P i j.
Proof. intros H H1 H2 i j [E|[E|[E|[]]]]; injection E as <- <-; assumption. Qed.
(** A given matrix: every link is written, with its exponential weight. *)
Lemma files_crema_given_case : ensemble_sampler gen0 true (made "crema" [] [] [1; 2; 3] [1; 1; 0] true (Edges ([0; 0; 1]%nat, [1; 2; 2]%nat, [1; 1; 1]))) 1 2 "s/" (Some 7%Z) start0 three0 =
  Some [("s/0.txt"%string, RealWeighted [((0, 1)%nat, Fin (- (1 / 2) * ln (3 / 4))); ((0, 2)%nat, Fin (- (1 / 1) * ln (3 / 4))); ((1, 2)%nat, Fin (- (1 / 2) * ln (3 / 4)))])].
Proof.
  rewrite (sampler_crema_given gen0 true _ 1 2 "s/" (Some 7%Z) start0 three0 start0 [0; 0; 1]%nat [1; 2; 2]%nat [1; 1; 1] (inv_gen_contract _)).
  - unfold files_of, outcomes, pair_states, sure_outcome, rates_in, sum2, made. cbn. rewrite cl_id by lra.
    replace (1 + 1) with 2 by lra. replace (1 + 0) with 1 by lra. replace (2 + 0) with 2 by lra. replace (1 - 1 / 4) with (3 / 4) by lra.
    repeat match goal with |- context [Rle_dec ?a ?b] => destruct (Rle_dec a b); [|lra] end. reflexivity.
  - reflexivity.
  - reflexivity.
  - reflexivity.
  - reflexivity.
  - apply in3; unfold sum2, rates_in, made; cbn; repeat split; try lia; lra.
  - exact three_valid.
  - reflexivity.
Qed.
(** Links with a probability: only those whose draw is below it. *)
Lemma files_crema_prob_case : ensemble_sampler gen0 false (made "crema" [] [] [1; 2; 3] [1; 2; 3] false (Edges ([0; 0; 1]%nat, [1; 2; 2]%nat, [1 / 8; 1 / 3; 1 / 5]))) 1 2 "s/" (Some 7%Z) start0 three0 =
  Some [("s/0.txt"%string, RealWeighted [((0, 2)%nat, Fin (- (1 / 4) * ln (1 / 2)))])].
Proof.
  rewrite (sampler_crema_prob gen0 false _ 1 2 "s/" (Some 7%Z) start0 three0 start0 [0; 0; 1]%nat [1; 2; 2]%nat [1 / 8; 1 / 3; 1 / 5] (inv_gen_contract _)).
  - unfold files_of, outcomes, pair_states, listed_outcome, real_outcome, rates_in, sum2, made. cbn. rewrite !cl_id by lra.
    destruct (Rlt_dec _ _); [lra|]. destruct (Rlt_dec _ _); [|lra]. destruct (Rlt_dec _ _); [lra|].
    replace (1 + 3) with 4 by lra. replace (1 - 1 / 2) with (1 / 2) by lra. destruct (Rle_dec _ _); [|lra]. reflexivity.
  - reflexivity.
  - reflexivity.
  - reflexivity.
  - reflexivity.
  - reflexivity.
  - apply in3; unfold sum2, rates_in, made; cbn; repeat split; try lia; lra.
  - exact three_valid.
  - reflexivity.
Qed.
Lemma files_sparse_und_case : ensemble_sampler gen0 false (made "crema-sparse" [] [] [1; 3] [1; 3] false (OneArray [1; 2])) 1 1 "s/" (Some 7%Z) start0 two0 =
  Some [("s/0.txt"%string, RealWeighted [((0, 1)%nat, Fin (- (1 / 4) * ln (1 / 2))); ((1, 0)%nat, Fin (- (1 / 4) * ln (1 / 2)))])].
Proof.
  rewrite (sampler_sparse_und gen0 _ 1 1 "s/" (Some 7%Z) start0 two0 start0 [1; 2] (inv_gen_contract _)).
  - unfold files_of, outcomes, pair_states, real_outcome, neq_pairs, p_binary, mul2, sum2, made. cbn. rewrite !cl_id by lra.
    destruct (Rlt_dec _ _); [|lra]. destruct (Rlt_dec _ _); [|lra].
    replace (1 + 3) with 4 by lra. replace (3 + 1) with 4 by lra. replace (1 - 1 / 2) with (1 / 2) by lra. destruct (Rle_dec _ _); [|lra]. reflexivity.
  - reflexivity.
  - reflexivity.
  - reflexivity.
  - reflexivity.
  - intros i j H H1 H2. destruct (apart2 i j H H1 H2) as [E|E]; injection E as -> ->; unfold mul2, sum2, made; cbn; lra.
  - exact two_valid.
  - reflexivity.
Qed.
Lemma files_sparse_dir_case : ensemble_sampler gen0 true (made "crema-sparse" [] [] [1; 3] [2; 3] false (TwoArrays [1; 1 / 4] [1; 1])) 1 1 "s/" (Some 7%Z) start0 two0 =
  Some [("s/0.txt"%string, RealWeighted [((0, 1)%nat, Fin (- (1 / 4) * ln (1 / 2)))])].
Proof.
  rewrite (sampler_sparse_dir gen0 _ 1 1 "s/" (Some 7%Z) start0 two0 start0 [1; 1 / 4] [1; 1] (inv_gen_contract _)).
  - unfold files_of, outcomes, pair_states, real_outcome, neq_pairs, p_binary, mul2, sum2, made. cbn. rewrite !cl_id by lra.
    destruct (Rlt_dec _ _); [|lra]. destruct (Rlt_dec _ _); [lra|].
    replace (1 + 3) with 4 by lra. replace (1 - 1 / 2) with (1 / 2) by lra. destruct (Rle_dec _ _); [|lra]. reflexivity.
  - reflexivity.
  - reflexivity.
  - reflexivity.
  - reflexivity.
  - reflexivity.
  - reflexivity.
  - intros i j H H1 H2. destruct (apart2 i j H H1 H2) as [E|E]; injection E as -> ->; unfold mul2, sum2, made; cbn; lra.
  - exact two_valid.
  - reflexivity.
Qed.
(** Two nodes, [xi xj = 2] and [yi yj = 1/2]: the graph with one link of weight 3. *)
Lemma ecm_law_case : probn (2 * 1) (fun us => same_lines
    (outcomes gen0 (int_outcome gen0 (p_enh (mul2 [1; 2] [1; 2]) (mul2 [1; 1 / 2] [1; 1 / 2])) (mul2 [1; 1 / 2] [1; 1 / 2])) [(0, 1)%nat] (states_of (two_draws (1 / 4, 1 / 2)) us))
    [((0, 1)%nat, 3%nat)]) (1 / 12).
Proof.
  pose proof (ecm_files_law gen0 (two_draws (1 / 4, 1 / 2)) [1; 2] [1; 1 / 2] (fun _ _ => 3%nat) (inv_gen_contract _) (inv_gen_geometric _)) as H.
  assert (HP : forall i j, (i < j < 2)%nat -> 0 <= mul2 [1; 2] [1; 2] i j /\ 0 <= mul2 [1; 1 / 2] [1; 1 / 2] i j < 1).
  { intros i j HI. destruct i as [|i]; destruct j as [|[|j]]; try lia. unfold mul2. cbn. lra. }
  specialize (H HP). cbn [List.length] in H. change (lt_pairs 2) with [(0, 1)%nat] in H. 
  change (weight_lines (fun _ _ => 3%nat) [(0, 1)%nat]) with [((0, 1)%nat, 3%nat)] in H.
  replace (1 / 12) with (prob_wundirected 2 (fun i j => q_enh (mul2 [1; 2] [1; 2] i j) (mul2 [1; 1 / 2] [1; 1 / 2] i j)) (fun _ _ => 3%nat)); [exact H|].
  rewrite <- over_lt_pairs. unfold over_pairs, mul2, q_enh. cbn. field.
Qed.
(** An edge list [(0,1), (1,2)] with [p = 1/2] and [b = 2]: the first link is heavier than 1 and the second missing. *)
Lemma crema_law_case : probn (2 * 2) (fun us => threshold_lines (fun i _ => if Nat.eqb i 0 then Some 1 else None) [(0, 1); (1, 2)]%nat
    (outcomes gen0 (real_outcome gen0 (fun _ _ => 1 / 2) (fun _ _ => 2)) [(0, 1); (1, 2)]%nat (states_of (two_draws (1 / 4, 1 / 2)) us))) (1 / 4 * exp (- 2)).
Proof.
  pose proof (real_law gen0 (two_draws (1 / 4, 1 / 2)) (fun _ _ => 1 / 2) (fun _ _ => 2) (fun i _ => if Nat.eqb i 0 then Some 1 else None) [(0, 1); (1, 2)]%nat (inv_gen_exponential _)) as H.
  cbn [List.length] in H. replace (1 / 4 * exp (- 2)) with (over_pairs [(0, 1); (1, 2)]%nat
    (fun i j => match (if Nat.eqb i 0 then Some 1 else None) with Some a => 1 / 2 * exp (- 2 * a) | None => 1 - 1 / 2 end)).
  - apply H; [repeat constructor; cbn; intuition congruence|]. intros i j _. split; [lra|]. split; [lra|]. intros a. destruct (Nat.eqb i 0); [|discriminate]. intros E. injection E as <-. lra.
  - unfold over_pairs. cbn. rewrite Rmult_1_r with (r := - 2). field.
Qed.
