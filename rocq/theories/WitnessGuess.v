From Coq Require Import Reals List Arith Bool String Lra Lia.
From Verif Require Import Base ModelDCM ModelNetwork ModelGuess SpecNetwork SpecWeighted SpecGuess.
Import ListNotations.
Local Open Scope R_scope.

(** Draws, a path with an isolated node, and its directed version. *)
Definition w_rnd : nat -> R := fun i => / INR (i + 2).
Definition w_dseq : list nat := [1%nat; 2%nat; 1%nat; 0%nat].
Definition w_dout : list nat := [1%nat; 1%nat; 0%nat; 0%nat].
Definition w_din : list nat := [0%nat; 1%nat; 1%nat; 0%nat].
Definition w_vec (a b c d : R) : nat -> R := fun i => match i with 0%nat => a | 1%nat => b | 2%nat => c | _ => d end.

Lemma w_draws : draws w_rnd.
Proof.
  intros i. unfold w_rnd. assert (1 < INR (i + 2)) by (rewrite plus_INR; cbn; pose proof (pos_INR i); lra).
  split; [apply Rinv_0_lt_compat; lra|]. rewrite <- Rinv_1. apply Rinv_lt_contravar; lra.
Qed.
Lemma binary_case : draws w_rnd /\ In "chung_lu"%string binary_names /\
  nth_error w_dseq 1 = Some 2%nat /\ nth_error (snd (fst (degree_reduction_und w_dseq))) 1 = Some 2%nat /\
  nth_error w_dseq 3 = Some 0%nat /\ nth_error (snd (fst (degree_reduction_und w_dseq))) 3 = Some 0%nat /\
  volume w_dseq = 4 /\ exists o, set_initial_guess_cm true w_dseq w_rnd (GStr "uniform") = inl o.
Proof.
  split; [exact w_draws|]. split; [cbn; auto 10|]. do 4 (split; [reflexivity|]). split; [unfold volume, rsum; cbn; lra|].
  eexists. reflexivity.
Qed.
Lemma binary_directed_case : List.length w_dout = List.length w_din /\ balanced w_dout w_din /\ volume w_dout = 2 /\
  nth_error w_dout 1 = Some 1%nat /\ nth_error w_din 1 = Some 1%nat /\
  (exists q, nth_error (r_invert_dseq (degree_reduction_dir w_dout w_din)) 1 = Some q).
Proof.
  split; [reflexivity|]. split; [unfold balanced, rsum; cbn; lra|]. split; [unfold volume, rsum; cbn; lra|].
  do 2 (split; [reflexivity|]). eexists. reflexivity.
Qed.
Lemma weighted_case : nonneg 4 (w_vec 1 2 1 0) /\ nonneg 4 (w_vec 1 3 2 0) /\ In "strengths"%string weighted_names /\
  (forall i, (i < 3)%nat -> w_vec 1 3 2 0 i <> 0) /\ w_vec 1 3 2 0 3%nat = 0.
Proof.
  repeat split; try (cbn; tauto);
    try (intros i Hi; destruct i as [|[|[|[|]]]]; cbn; try lra; lia).
Qed.
(** A star of two links into node 2 is not a single flow; one link is. *)
Lemma directed_case : nonneg 3 (w_vec 1 1 0 0) /\ nonneg 3 (w_vec 0 0 2 0) /\ ~ single_flow 3 (w_vec 1 1 0 0) (w_vec 0 0 2 0) /\
  single_flow 2 (w_vec 1 0 0 0) (w_vec 0 1 0 0).
Proof.
  split; [intros i Hi; destruct i as [|[|[|]]]; cbn; try lra; lia|]. split; [intros i Hi; destruct i as [|[|[|]]]; cbn; try lra; lia|]. split.
  - intros (i & j & Li & Lj & Nij & Pi & Pj & Zi & Zj).
    pose proof (Zi 0%nat ltac:(lia)) as A. pose proof (Zi 1%nat ltac:(lia)) as B. cbn in A, B.
    destruct i as [|i]; [specialize (B ltac:(lia)); lra|]. specialize (A ltac:(lia)). lra.
  - exists 0%nat, 1%nat. repeat split; try lia; cbn; try lra; intros h Hh N; destruct h as [|[|]]; cbn; try lra; lia.
Qed.
(** Two isolated nodes: the exponents of [ecm_exp] start at a pair sum 0. *)
Lemma isolated_case : exists o, set_initial_guess_ecm true 4 (w_vec 1 1 0 0) (w_vec 3 3 0 0) w_rnd (GStr "random") = inl o /\
  w_vec 3 3 0 0 2%nat = 0 /\ w_vec 3 3 0 0 3%nat = 0 /\ (2 <> 3)%nat.
Proof. eexists. split; [reflexivity|]. split; [reflexivity|]. split; [reflexivity|]. lia. Qed.
Lemma array_case : (exists o, set_initial_guess_cm true w_dseq w_rnd (GArr 4 (w_vec 1 2 3 4)) = inl o) /\
  (exists o, set_initial_guess_dcm_exp w_dout w_din w_rnd (GArr 8 (fun _ => 1)) = inl o) /\
  ~ In "degree"%string binary_names /\ ~ In "degrees"%string weighted_names.
Proof.
  split; [eexists; reflexivity|]. split; [eexists; reflexivity|].
  split; cbn; intuition discriminate.
Qed.
