(** Proofs about the DECM functions: normal forms and derivatives. *)
From Coq Require Import Reals List Arith Lia Lra Bool.
From Coquelicot Require Import Coquelicot.
From Verif Require Import Base SpecDeriv SpecGraph SpecWeighted ModelDCM ModelDECM.
From Verif Require Import ProofsDeriv ProofsGraph ProofsPairW ProofsECM.
Local Open Scope R_scope.

(** * Blocks *)

Section Blocks.
Variables (n h : nat).
Hypothesis Hh : (h < n)%nat.

Lemma blk0 : blk n h = 0%nat.
Proof. unfold blk. rewrite (proj2 (Nat.ltb_lt h n) Hh). reflexivity. Qed.
Lemma blk1 : blk n (h + n) = 1%nat.
Proof.
  unfold blk. rewrite (proj2 (Nat.ltb_ge (h + n) n)) by lia.
  rewrite (proj2 (Nat.ltb_lt (h + n) (2 * n))) by lia. reflexivity.
Qed.
Lemma blk2 : blk n (h + 2 * n) = 2%nat.
Proof.
  unfold blk. rewrite (proj2 (Nat.ltb_ge (h + 2 * n) n)) by lia.
  rewrite (proj2 (Nat.ltb_ge (h + 2 * n) (2 * n))) by lia.
  rewrite (proj2 (Nat.ltb_lt (h + 2 * n) (3 * n))) by lia. reflexivity.
Qed.
Lemma blk3 : blk n (h + 3 * n) = 3%nat.
Proof.
  unfold blk. rewrite (proj2 (Nat.ltb_ge (h + 3 * n) n)) by lia.
  rewrite (proj2 (Nat.ltb_ge (h + 3 * n) (2 * n))) by lia.
  rewrite (proj2 (Nat.ltb_ge (h + 3 * n) (3 * n))) by lia. reflexivity.
Qed.
Lemma pos0 : pos n h = h.
Proof. unfold pos. rewrite blk0. lia. Qed.
Lemma pos1 : pos n (h + n) = h.
Proof. unfold pos. rewrite blk1. lia. Qed.
Lemma pos2 : pos n (h + 2 * n) = h.
Proof. unfold pos. rewrite blk2. lia. Qed.
Lemma pos3 : pos n (h + 3 * n) = h.
Proof. unfold pos. rewrite blk3. lia. Qed.

Lemma by_block0 {A} (f0 f1 f2 f3 : nat -> A) : by_block n h f0 f1 f2 f3 = f0 h.
Proof. unfold by_block. rewrite blk0, pos0. reflexivity. Qed.
Lemma by_block1 {A} (f0 f1 f2 f3 : nat -> A) : by_block n (h + n) f0 f1 f2 f3 = f1 h.
Proof. unfold by_block. rewrite blk1, pos1. reflexivity. Qed.
Lemma by_block2 {A} (f0 f1 f2 f3 : nat -> A) : by_block n (h + 2 * n) f0 f1 f2 f3 = f2 h.
Proof. unfold by_block. rewrite blk2, pos2. reflexivity. Qed.
Lemma by_block3 {A} (f0 f1 f2 f3 : nat -> A) : by_block n (h + 3 * n) f0 f1 f2 f3 = f3 h.
Proof. unfold by_block. rewrite blk3, pos3. reflexivity. Qed.
End Blocks.

Lemma coord4 n (P : nat -> Prop) :
  (forall i, (i < n)%nat -> P i) -> (forall i, (i < n)%nat -> P (i + n)%nat) ->
  (forall i, (i < n)%nat -> P (i + 2 * n)%nat) -> (forall i, (i < n)%nat -> P (i + 3 * n)%nat) ->
  forall r, (r < 4 * n)%nat -> P r.
Proof.
  intros H0 H1 H2 H3 r Hr.
  destruct (Nat.lt_ge_cases r n); [auto|].
  destruct (Nat.lt_ge_cases r (2 * n)); [replace r with (r - n + n)%nat by lia; apply H1; lia|].
  destruct (Nat.lt_ge_cases r (3 * n)); [replace r with (r - 2 * n + 2 * n)%nat by lia; apply H2; lia|].
  replace r with (r - 3 * n + 3 * n)%nat by lia; apply H3; lia.
Qed.

Lemma constraint0 n ko ki so si i : (i < n)%nat -> decm_constraint n ko ki so si i = ko i.
Proof. intros H. unfold decm_constraint. rewrite (proj2 (Nat.ltb_lt i n) H). reflexivity. Qed.
Lemma constraint1 n ko ki so si i : (i < n)%nat -> decm_constraint n ko ki so si (i + n) = ki i.
Proof.
  intros H. unfold decm_constraint. rewrite (proj2 (Nat.ltb_ge (i + n) n)) by lia.
  rewrite (proj2 (Nat.ltb_lt (i + n) (2 * n))) by lia. f_equal. lia.
Qed.
Lemma constraint2 n ko ki so si i : (i < n)%nat -> decm_constraint n ko ki so si (i + 2 * n) = so i.
Proof.
  intros H. unfold decm_constraint. rewrite (proj2 (Nat.ltb_ge (i + 2 * n) n)) by lia.
  rewrite (proj2 (Nat.ltb_ge (i + 2 * n) (2 * n))) by lia.
  rewrite (proj2 (Nat.ltb_lt (i + 2 * n) (3 * n))) by lia. f_equal. lia.
Qed.
Lemma constraint3 n ko ki so si i : (i < n)%nat -> decm_constraint n ko ki so si (i + 3 * n) = si i.
Proof.
  intros H. unfold decm_constraint. rewrite (proj2 (Nat.ltb_ge (i + 3 * n) n)) by lia.
  rewrite (proj2 (Nat.ltb_ge (i + 3 * n) (2 * n))) by lia.
  rewrite (proj2 (Nat.ltb_ge (i + 3 * n) (3 * n))) by lia. f_equal. lia.
Qed.

(** * Domain facts *)

Lemma decm_pair_facts n x i j :
  decm_dom n x -> (i < n)%nat -> (j < n)%nat -> i <> j ->
  0 <= x i /\ 0 <= x (j + n)%nat /\ 0 <= x (i + 2 * n)%nat /\ 0 <= x (j + 3 * n)%nat /\
  0 <= x i * x (j + n)%nat /\ 0 <= x (i + 2 * n)%nat * x (j + 3 * n)%nat < 1 /\
  0 < 1 - x (i + 2 * n)%nat * x (j + 3 * n)%nat /\
  0 <= x i * x (j + n)%nat * (x (i + 2 * n)%nat * x (j + 3 * n)%nat) /\
  0 < 1 - x (i + 2 * n)%nat * x (j + 3 * n)%nat
      + x i * x (j + n)%nat * (x (i + 2 * n)%nat * x (j + 3 * n)%nat).
Proof.
  intros [Hp Hl] Hi Hj Hij. pose proof (Hl i j Hi Hj Hij).
  pose proof (Hp i ltac:(lia)). pose proof (Hp (j + n)%nat ltac:(lia)).
  pose proof (Hp (i + 2 * n)%nat ltac:(lia)). pose proof (Hp (j + 3 * n)%nat ltac:(lia)).
  assert (0 <= x i * x (j + n)%nat) by (apply Rmult_le_pos; assumption).
  assert (0 <= x (i + 2 * n)%nat * x (j + 3 * n)%nat) by (apply Rmult_le_pos; assumption).
  assert (0 <= x i * x (j + n)%nat * (x (i + 2 * n)%nat * x (j + 3 * n)%nat)) by (apply Rmult_le_pos; assumption).
  repeat split; lra.
Qed.

Ltac dpf H i j :=
  let F := fresh "F" in
  pose proof (decm_pair_facts _ _ i j H ltac:(lia) ltac:(lia) ltac:(lia)) as F;
  destruct F as (? & ? & ? & ? & ? & ? & ? & ? & ?).

(** * Rows of the pair sum *)

Section Rows.
Variables (n : nat) (g : R -> R -> R -> R -> R).

Definition Row_out (h : nat) (x : nat -> R) : R :=
  rsum n (fun j => if Nat.eqb h j then 0 else g (x h) (x (h + 2 * n)%nat) (x (j + n)%nat) (x (j + 3 * n)%nat)).
Definition Row_in (h : nat) (x : nat -> R) : R :=
  rsum n (fun j => if Nat.eqb h j then 0 else g (x j) (x (j + 2 * n)%nat) (x (h + n)%nat) (x (h + 3 * n)%nat)).

Lemma Row_swap x : rsum n (fun h => Row_out h x) = rsum n (fun h => Row_in h x).
Proof.
  unfold Row_out, Row_in.
  rewrite (rsum_swap n n (fun h j => if Nat.eqb h j then 0 else g (x h) (x (h + 2 * n)%nat) (x (j + n)%nat) (x (j + 3 * n)%nat))).
  apply rsum_ext. intros i Hi. apply rsum_ext. intros j Hj. rewrite Nat.eqb_sym. reflexivity.
Qed.

Variables (x : nat -> R) (h : nat).
Hypothesis Hh : (h < n)%nat.

Lemma row_out_0 d :
  (forall j, (j < n)%nat -> j <> h ->
    is_derive (fun u : R => g u (x (h + 2 * n)%nat) (x (j + n)%nat) (x (j + 3 * n)%nat)) (x h) (d j)) ->
  partial (Row_out h) x h (rsum n (fun j => if Nat.eqb h j then 0 else d j)).
Proof.
  intros H. unfold partial, Row_out.
  apply (is_derive_row n h (fun j u => g (upd x h u h) (upd x h u (h + 2 * n)%nat) (upd x h u (j + n)%nat) (upd x h u (j + 3 * n)%nat))).
  intros j Hj Hjh. dsimp. apply H; assumption.
Qed.

Lemma row_out_2 d :
  (forall j, (j < n)%nat -> j <> h ->
    is_derive (fun u : R => g (x h) u (x (j + n)%nat) (x (j + 3 * n)%nat)) (x (h + 2 * n)%nat) (d j)) ->
  partial (Row_out h) x (h + 2 * n) (rsum n (fun j => if Nat.eqb h j then 0 else d j)).
Proof.
  intros H. unfold partial, Row_out.
  apply (is_derive_row n h (fun j u => g (upd x (h + 2 * n) u h) (upd x (h + 2 * n) u (h + 2 * n)%nat) (upd x (h + 2 * n) u (j + n)%nat) (upd x (h + 2 * n) u (j + 3 * n)%nat))).
  intros j Hj Hjh. dsimp. apply H; assumption.
Qed.

Lemma row_out_1 t d : (t < n)%nat -> t <> h ->
  is_derive (fun u : R => g (x h) (x (h + 2 * n)%nat) u (x (t + 3 * n)%nat)) (x (t + n)%nat) d ->
  partial (Row_out h) x (t + n) d.
Proof.
  intros Ht Hth H. unfold partial, Row_out.
  apply (is_derive_row_one n h t (fun j u => g (upd x (t + n) u h) (upd x (t + n) u (h + 2 * n)%nat) (upd x (t + n) u (j + n)%nat) (upd x (t + n) u (j + 3 * n)%nat))); auto.
  - intros j Hj Hjh Hjt. dsimp. apply is_derive_R0.
  - dsimp. exact H.
Qed.

Lemma row_out_3 t d : (t < n)%nat -> t <> h ->
  is_derive (fun u : R => g (x h) (x (h + 2 * n)%nat) (x (t + n)%nat) u) (x (t + 3 * n)%nat) d ->
  partial (Row_out h) x (t + 3 * n) d.
Proof.
  intros Ht Hth H. unfold partial, Row_out.
  apply (is_derive_row_one n h t (fun j u => g (upd x (t + 3 * n) u h) (upd x (t + 3 * n) u (h + 2 * n)%nat) (upd x (t + 3 * n) u (j + n)%nat) (upd x (t + 3 * n) u (j + 3 * n)%nat))); auto.
  - intros j Hj Hjh Hjt. dsimp. apply is_derive_R0.
  - dsimp. exact H.
Qed.

Lemma row_out_none r :
  r <> h -> r <> (h + 2 * n)%nat ->
  (forall j, (j < n)%nat -> j <> h -> r <> (j + n)%nat /\ r <> (j + 3 * n)%nat) ->
  partial (Row_out h) x r 0.
Proof.
  intros H0 H2 H13. unfold partial.
  apply (is_derive_fext (fun _ : R => Row_out h x)); [|apply is_derive_R0].
  intros u. unfold Row_out. apply rsum_ext. intros j Hj.
  destruct (Nat.eqb_spec h j) as [E|E]; [reflexivity|].
  destruct (H13 j Hj ltac:(lia)). upd_eval. reflexivity.
Qed.

Lemma row_in_1 d :
  (forall j, (j < n)%nat -> j <> h ->
    is_derive (fun u : R => g (x j) (x (j + 2 * n)%nat) u (x (h + 3 * n)%nat)) (x (h + n)%nat) (d j)) ->
  partial (Row_in h) x (h + n) (rsum n (fun j => if Nat.eqb h j then 0 else d j)).
Proof.
  intros H. unfold partial, Row_in.
  apply (is_derive_row n h (fun j u => g (upd x (h + n) u j) (upd x (h + n) u (j + 2 * n)%nat) (upd x (h + n) u (h + n)%nat) (upd x (h + n) u (h + 3 * n)%nat))).
  intros j Hj Hjh. dsimp. apply H; assumption.
Qed.

Lemma row_in_3 d :
  (forall j, (j < n)%nat -> j <> h ->
    is_derive (fun u : R => g (x j) (x (j + 2 * n)%nat) (x (h + n)%nat) u) (x (h + 3 * n)%nat) (d j)) ->
  partial (Row_in h) x (h + 3 * n) (rsum n (fun j => if Nat.eqb h j then 0 else d j)).
Proof.
  intros H. unfold partial, Row_in.
  apply (is_derive_row n h (fun j u => g (upd x (h + 3 * n) u j) (upd x (h + 3 * n) u (j + 2 * n)%nat) (upd x (h + 3 * n) u (h + n)%nat) (upd x (h + 3 * n) u (h + 3 * n)%nat))).
  intros j Hj Hjh. dsimp. apply H; assumption.
Qed.

Lemma row_in_0 t d : (t < n)%nat -> t <> h ->
  is_derive (fun u : R => g u (x (t + 2 * n)%nat) (x (h + n)%nat) (x (h + 3 * n)%nat)) (x t) d ->
  partial (Row_in h) x t d.
Proof.
  intros Ht Hth H. unfold partial, Row_in.
  apply (is_derive_row_one n h t (fun j u => g (upd x t u j) (upd x t u (j + 2 * n)%nat) (upd x t u (h + n)%nat) (upd x t u (h + 3 * n)%nat))); auto.
  - intros j Hj Hjh Hjt. dsimp. apply is_derive_R0.
  - dsimp. exact H.
Qed.

Lemma row_in_2 t d : (t < n)%nat -> t <> h ->
  is_derive (fun u : R => g (x t) u (x (h + n)%nat) (x (h + 3 * n)%nat)) (x (t + 2 * n)%nat) d ->
  partial (Row_in h) x (t + 2 * n) d.
Proof.
  intros Ht Hth H. unfold partial, Row_in.
  apply (is_derive_row_one n h t (fun j u => g (upd x (t + 2 * n) u j) (upd x (t + 2 * n) u (j + 2 * n)%nat) (upd x (t + 2 * n) u (h + n)%nat) (upd x (t + 2 * n) u (h + 3 * n)%nat))); auto.
  - intros j Hj Hjh Hjt. dsimp. apply is_derive_R0.
  - dsimp. exact H.
Qed.

Lemma row_in_none r :
  r <> (h + n)%nat -> r <> (h + 3 * n)%nat ->
  (forall j, (j < n)%nat -> j <> h -> r <> j /\ r <> (j + 2 * n)%nat) ->
  partial (Row_in h) x r 0.
Proof.
  intros H0 H2 H13. unfold partial.
  apply (is_derive_fext (fun _ : R => Row_in h x)); [|apply is_derive_R0].
  intros u. unfold Row_in. apply rsum_ext. intros j Hj.
  destruct (Nat.eqb_spec h j) as [E|E]; [reflexivity|].
  destruct (H13 j Hj ltac:(lia)). upd_eval. reflexivity.
Qed.

End Rows.

(** The whole pair sum. *)
Definition PairSum n (g : R -> R -> R -> R -> R) (x : nat -> R) : R := rsum n (fun h => Row_out n g h x).

Lemma pairsum_out n g x h r d :
  (h < n)%nat -> (r = h \/ r = h + 2 * n)%nat ->
  partial (Row_out n g h) x r d -> partial (PairSum n g) x r d.
Proof.
  intros Hh Hr H. unfold partial, PairSum.
  apply (is_derive_rsum_one n h (fun i u => Row_out n g i (upd x r u))); [exact Hh| |exact H].
  intros i Hi Hih. apply (row_out_none n g x i Hi r); try lia.
  all: intros; lia.
Qed.

Lemma pairsum_in n g x h r d :
  (h < n)%nat -> (r = h + n \/ r = h + 3 * n)%nat ->
  partial (Row_in n g h) x r d -> partial (PairSum n g) x r d.
Proof.
  intros Hh Hr H.
  apply (partial_ext (fun z => rsum n (fun h => Row_in n g h z))).
  { intros y. unfold PairSum. symmetry. apply Row_swap. }
  unfold partial.
  apply (is_derive_rsum_one n h (fun i u => Row_in n g i (upd x r u))); [exact Hh| |exact H].
  intros i Hi Hih. apply (row_in_none n g x i Hi r); try lia.
  all: intros; lia.
Qed.

(** * Normal forms *)

Definition klog (k v : R) : R := if Req_EM_T k 0 then 0 else k * ln v.
Definition kd (k v : R) : R := if Req_EM_T k 0 then 0 else k / v.
Definition kd2 (k v : R) : R := if Req_EM_T k 0 then 0 else - k / v ^ 2.

Definition gL (ao bo ai bi : R) : R := ln (1 - bo * bi) - ln (1 - bo * bi + ao * ai * (bo * bi)).
Definition g_ao (ao bo ai bi : R) : R := ai * (bo * bi) / (1 - bo * bi + ao * ai * (bo * bi)).
Definition g_ai (ao bo ai bi : R) : R := ao * (bo * bi) / (1 - bo * bi + ao * ai * (bo * bi)).
Definition g_bo (ao bo ai bi : R) : R :=
  bi / (1 - bo * bi) + (ao * ai - 1) * bi / (1 - bo * bi + ao * ai * (bo * bi)).
Definition g_bi (ao bo ai bi : R) : R :=
  bo / (1 - bo * bi) + (ao * ai - 1) * bo / (1 - bo * bi + ao * ai * (bo * bi)).

Lemma rdiv_eq a b a' b' : a = a' -> b = b' -> a / b = a' / b'.
Proof. congruence. Qed.

Section NF.
Variables (n : nat) (ko ki so si : nat -> R).

Lemma loglik_decm_nf x :
  loglikelihood_decm n ko ki so si x =
  rsum n (fun i => klog (ko i) (x i) + klog (ki i) (x (i + n)%nat)
     + klog (so i) (x (i + 2 * n)%nat) + klog (si i) (x (i + 3 * n)%nat))
  + PairSum n gL x.
Proof.
  unfold loglikelihood_decm, PairSum, Row_out. cbv zeta. rewrite <- rsum_plus.
  rewrite (loop_add n 0 _ (fun i => (klog (ko i) (x i) + klog (ki i) (x (i + n)%nat)
     + klog (so i) (x (i + 2 * n)%nat) + klog (si i) (x (i + 3 * n)%nat))
    + rsum n (fun j => if Nat.eqb i j then 0 else gL (x i) (x (i + 2 * n)%nat) (x (j + n)%nat) (x (j + 3 * n)%nat)))).
  - ring.
  - intros i acc Hi.
    match goal with |- loop n ?a _ = _ =>
      rewrite (loop_add n a _ (fun j => if Nat.eqb i j then 0 else gL (x i) (x (i + 2 * n)%nat) (x (j + n)%nat) (x (j + 3 * n)%nat))) end.
    + unfold klog.
      destruct (Req_EM_T (ko i) 0), (Req_EM_T (ki i) 0), (Req_EM_T (so i) 0), (Req_EM_T (si i) 0); ring.
    + intros j a Hj. destruct (Nat.eqb i j); cbn [negb]; [ring|]. unfold gL.
      replace (x (i + 2 * n)%nat * x (j + 3 * n)%nat * x i * x (j + n)%nat)
        with (x i * x (j + n)%nat * (x (i + 2 * n)%nat * x (j + 3 * n)%nat)) by ring.
      ring.
Qed.

Lemma prime_decm_0 x i : (i < n)%nat ->
  loglikelihood_prime_decm n ko ki so si x i = kd (ko i) (x i) - Row_out n g_ao i x.
Proof.
  intros Hi. unfold loglikelihood_prime_decm. rewrite by_block0 by exact Hi. cbv zeta.
  rewrite loop_add_skip. unfold Row_out, g_ao, kd.
  destruct (Req_EM_T (ko i) 0); ring.
Qed.

Lemma prime_decm_1 x i : (i < n)%nat ->
  loglikelihood_prime_decm n ko ki so si x (i + n) = kd (ki i) (x (i + n)%nat) - Row_in n g_ai i x.
Proof.
  intros Hi. unfold loglikelihood_prime_decm. rewrite by_block1 by exact Hi. cbv zeta.
  rewrite loop_add_skip. unfold Row_in, g_ai, kd.
  destruct (Req_EM_T (ki i) 0); ring.
Qed.

Lemma prime_decm_2 x i : (i < n)%nat ->
  loglikelihood_prime_decm n ko ki so si x (i + 2 * n) = kd (so i) (x (i + 2 * n)%nat) - Row_out n g_bo i x.
Proof.
  intros Hi. unfold loglikelihood_prime_decm. rewrite by_block2 by exact Hi. cbv zeta.
  match goal with |- context [loop n 0 ?F] =>
    rewrite (loop_add n 0 F (fun j => if Nat.eqb i j then 0 else g_bo (x i) (x (i + 2 * n)%nat) (x (j + n)%nat) (x (j + 3 * n)%nat))) end.
  - unfold Row_out, kd. destruct (Req_EM_T (so i) 0); ring.
  - intros j acc Hj. destruct (Nat.eqb i j); cbn [negb]; [ring|]. unfold g_bo.
    rewrite (Rmult_comm (x (j + 3 * n)%nat)).
    destruct (Req_EM_T (x i) 0) as [E|E].
    + rewrite E.
      replace (1 - x (i + 2 * n)%nat * x (j + 3 * n)%nat + 0 * x (j + n)%nat * (x (i + 2 * n)%nat * x (j + 3 * n)%nat))
        with (1 - x (i + 2 * n)%nat * x (j + 3 * n)%nat) by ring.
      unfold Rdiv. ring.
    + f_equal. f_equal. apply rdiv_eq; ring.
Qed.

Lemma prime_decm_3 x i : (i < n)%nat ->
  loglikelihood_prime_decm n ko ki so si x (i + 3 * n) = kd (si i) (x (i + 3 * n)%nat) - Row_in n g_bi i x.
Proof.
  intros Hi. unfold loglikelihood_prime_decm. rewrite by_block3 by exact Hi. cbv zeta.
  match goal with |- context [loop n 0 ?F] =>
    rewrite (loop_add n 0 F (fun j => if Nat.eqb i j then 0 else g_bi (x j) (x (j + 2 * n)%nat) (x (i + n)%nat) (x (i + 3 * n)%nat))) end.
  - unfold Row_in, kd. destruct (Req_EM_T (si i) 0); ring.
  - intros j acc Hj. destruct (Nat.eqb i j); cbn [negb]; [ring|]. f_equal. unfold g_bi.
    rewrite (Rmult_comm (x (i + 3 * n)%nat)).
    f_equal. apply rdiv_eq; ring.
Qed.

End NF.

(** * Gradient *)

Lemma partial_Rplus F G x r (d e : R) :
  partial F x r d -> partial G x r e -> partial (fun z => F z + G z) x r (d + e).
Proof. intros. apply (is_derive_Rplus (fun t => F (upd x r t)) (fun t => G (upd x r t))); assumption. Qed.
Lemma partial_Rminus F G x r (d e : R) :
  partial F x r d -> partial G x r e -> partial (fun z => F z - G z) x r (d - e).
Proof. intros. apply (is_derive_Rminus (fun t => F (upd x r t)) (fun t => G (upd x r t))); assumption. Qed.
Lemma partial_eq F x r (d e : R) : partial F x r d -> d = e -> partial F x r e.
Proof. intros H <-; exact H. Qed.

Lemma klog_derive k (v : R) : (k <> 0 -> 0 < v) -> is_derive (fun u : R => klog k u) v (kd k v).
Proof.
  intros H. unfold klog, kd. destruct (Req_EM_T k 0) as [E|E].
  - apply is_derive_R0.
  - specialize (H E). auto_derive; [lra|]. field. lra.
Qed.

Lemma kd_derive k (v : R) : (k <> 0 -> 0 < v) -> is_derive (fun u : R => kd k u) v (kd2 k v).
Proof.
  intros H. unfold kd, kd2. destruct (Req_EM_T k 0) as [E|E].
  - apply is_derive_R0.
  - specialize (H E). auto_derive; [lra|]. field. lra.
Qed.

Section LinPart.
Variables (n : nat) (A0 A1 A2 A3 : nat -> R -> R) (x : nat -> R) (h : nat) (d : R).
Hypothesis Hh : (h < n)%nat.
Let L z := rsum n (fun i => A0 i (z i) + A1 i (z (i + n)%nat) + A2 i (z (i + 2 * n)%nat) + A3 i (z (i + 3 * n)%nat)).

Ltac lin r := unfold partial, L;
  apply (is_derive_rsum_one n h (fun i u => A0 i (upd x r u i) + A1 i (upd x r u (i + n)%nat)
     + A2 i (upd x r u (i + 2 * n)%nat) + A3 i (upd x r u (i + 3 * n)%nat))); [exact Hh| |];
  [intros i Hi Hih; dsimp; apply is_derive_R0|dsimp].

Lemma lin_0 : is_derive (A0 h) (x h) d -> partial L x h d.
Proof.
  intros H. lin h.
  apply (is_derive_eq _ _ (d + 0 + 0 + 0)); [|ring].
  repeat apply is_derive_Rplus; try apply is_derive_R0. exact H.
Qed.
Lemma lin_1 : is_derive (A1 h) (x (h + n)%nat) d -> partial L x (h + n) d.
Proof.
  intros H. lin (h + n)%nat.
  apply (is_derive_eq _ _ (0 + d + 0 + 0)); [|ring].
  repeat apply is_derive_Rplus; try apply is_derive_R0. exact H.
Qed.
Lemma lin_2 : is_derive (A2 h) (x (h + 2 * n)%nat) d -> partial L x (h + 2 * n) d.
Proof.
  intros H. lin (h + 2 * n)%nat.
  apply (is_derive_eq _ _ (0 + 0 + d + 0)); [|ring].
  repeat apply is_derive_Rplus; try apply is_derive_R0. exact H.
Qed.
Lemma lin_3 : is_derive (A3 h) (x (h + 3 * n)%nat) d -> partial L x (h + 3 * n) d.
Proof.
  intros H. lin (h + 3 * n)%nat.
  apply (is_derive_eq _ _ (0 + 0 + 0 + d)); [|ring].
  repeat apply is_derive_Rplus; try apply is_derive_R0. exact H.
Qed.
End LinPart.

(** Pointwise derivatives, for one ordered pair. *)
Definition pairok (ao bo ai bi : R) : Prop := 0 < 1 - bo * bi /\ 0 < 1 - bo * bi + ao * ai * (bo * bi).

Lemma decm_pairok n x i j :
  decm_dom n x -> (i < n)%nat -> (j < n)%nat -> i <> j ->
  pairok (x i) (x (i + 2 * n)%nat) (x (j + n)%nat) (x (j + 3 * n)%nat).
Proof. intros. dpf H i j. split; lra. Qed.

Ltac dpair := intros [? ?]; auto_derive; [repeat split; lra|]; field; lra.

Section PairDeriv.
Variables ao bo ai bi : R.
Let D := 1 - bo * bi + ao * ai * (bo * bi).
Let E := 1 - bo * bi.

Lemma gL_ao : pairok ao bo ai bi -> is_derive (fun u : R => gL u bo ai bi) ao (- g_ao ao bo ai bi).
Proof. unfold gL, g_ao. dpair. Qed.
Lemma gL_ai : pairok ao bo ai bi -> is_derive (fun u : R => gL ao bo u bi) ai (- g_ai ao bo ai bi).
Proof. unfold gL, g_ai. dpair. Qed.
Lemma gL_bo : pairok ao bo ai bi -> is_derive (fun u : R => gL ao u ai bi) bo (- g_bo ao bo ai bi).
Proof. unfold gL, g_bo. dpair. Qed.
Lemma gL_bi : pairok ao bo ai bi -> is_derive (fun u : R => gL ao bo ai u) bi (- g_bi ao bo ai bi).
Proof. unfold gL, g_bi. dpair. Qed.

Ltac dp := unfold g_ao, g_ai, g_bo, g_bi, D, E; dpair.
(** second derivatives *)
Lemma g_ao_ao : pairok ao bo ai bi -> is_derive (fun u : R => g_ao u bo ai bi) ao (- (ai * (bo * bi)) ^ 2 / D ^ 2).
Proof. dp. Qed.
Lemma g_ao_ai : pairok ao bo ai bi -> is_derive (fun u : R => g_ao ao bo u bi) ai ((bo * bi) * E / D ^ 2).
Proof. dp. Qed.
Lemma g_ao_bo : pairok ao bo ai bi -> is_derive (fun u : R => g_ao ao u ai bi) bo (ai * bi / D ^ 2).
Proof. dp. Qed.
Lemma g_ao_bi : pairok ao bo ai bi -> is_derive (fun u : R => g_ao ao bo ai u) bi (ai * bo / D ^ 2).
Proof. dp. Qed.
Lemma g_ai_ao : pairok ao bo ai bi -> is_derive (fun u : R => g_ai u bo ai bi) ao ((bo * bi) * E / D ^ 2).
Proof. dp. Qed.
Lemma g_ai_ai : pairok ao bo ai bi -> is_derive (fun u : R => g_ai ao bo u bi) ai (- (ao * (bo * bi)) ^ 2 / D ^ 2).
Proof. dp. Qed.
Lemma g_ai_bo : pairok ao bo ai bi -> is_derive (fun u : R => g_ai ao u ai bi) bo (ao * bi / D ^ 2).
Proof. dp. Qed.
Lemma g_ai_bi : pairok ao bo ai bi -> is_derive (fun u : R => g_ai ao bo ai u) bi (ao * bo / D ^ 2).
Proof. dp. Qed.
Lemma g_bo_ao : pairok ao bo ai bi -> is_derive (fun u : R => g_bo u bo ai bi) ao (ai * bi / D ^ 2).
Proof. dp. Qed.
Lemma g_bo_ai : pairok ao bo ai bi -> is_derive (fun u : R => g_bo ao bo u bi) ai (ao * bi / D ^ 2).
Proof. dp. Qed.
Lemma g_bo_bo : pairok ao bo ai bi -> is_derive (fun u : R => g_bo ao u ai bi) bo
  ((bi / E) ^ 2 - ((ao * ai - 1) * bi / D) ^ 2).
Proof. dp. Qed.
Lemma g_bo_bi : pairok ao bo ai bi -> is_derive (fun u : R => g_bo ao bo ai u) bi
  (1 / E ^ 2 + (ao * ai - 1) / D ^ 2).
Proof. dp. Qed.
Lemma g_bi_ao : pairok ao bo ai bi -> is_derive (fun u : R => g_bi u bo ai bi) ao (ai * bo / D ^ 2).
Proof. dp. Qed.
Lemma g_bi_ai : pairok ao bo ai bi -> is_derive (fun u : R => g_bi ao bo u bi) ai (ao * bo / D ^ 2).
Proof. dp. Qed.
Lemma g_bi_bo : pairok ao bo ai bi -> is_derive (fun u : R => g_bi ao u ai bi) bo
  (1 / E ^ 2 + (ao * ai - 1) / D ^ 2).
Proof. dp. Qed.
Lemma g_bi_bi : pairok ao bo ai bi -> is_derive (fun u : R => g_bi ao bo ai u) bi
  ((bo / E) ^ 2 - ((ao * ai - 1) * bo / D) ^ 2).
Proof. dp. Qed.
End PairDeriv.

Lemma gradient_decm n ko ki so si x r :
  (r < 4 * n)%nat -> decm_dom n x -> decm_supp n ko ki so si x ->
  partial (loglikelihood_decm n ko ki so si) x r (loglikelihood_prime_decm n ko ki so si x r).
Proof.
  intros Hr HD HS. revert r Hr.
  assert (HE : forall r d, partial (fun z => rsum n (fun i => klog (ko i) (z i) + klog (ki i) (z (i + n)%nat)
     + klog (so i) (z (i + 2 * n)%nat) + klog (si i) (z (i + 3 * n)%nat))
     + PairSum n gL z) x r d -> partial (loglikelihood_decm n ko ki so si) x r d).
  { intros r d. apply partial_ext. intros y. symmetry. apply loglik_decm_nf. }
  apply coord4; intros h Hh; apply HE; destruct (HS h Hh) as (S0 & S1 & S2 & S3).
  - rewrite prime_decm_0 by exact Hh. unfold Rminus. apply partial_Rplus.
    + apply (lin_0 n (fun i => klog (ko i)) (fun i => klog (ki i)) (fun i => klog (so i)) (fun i => klog (si i))); [exact Hh|].
      apply klog_derive; exact S0.
    + apply (pairsum_out n gL x h); auto. unfold Row_out. rewrite rsum_skip_opp. apply row_out_0; [exact Hh|].
      intros j Hj Hjh. apply gL_ao. apply (decm_pairok n x h j HD); auto.
  - rewrite prime_decm_1 by exact Hh. unfold Rminus. apply partial_Rplus.
    + apply (lin_1 n (fun i => klog (ko i)) (fun i => klog (ki i)) (fun i => klog (so i)) (fun i => klog (si i))); [exact Hh|].
      apply klog_derive; exact S1.
    + apply (pairsum_in n gL x h); auto. unfold Row_in. rewrite rsum_skip_opp. apply row_in_1; [exact Hh|].
      intros j Hj Hjh. apply gL_ai. apply (decm_pairok n x j h HD); auto.
  - rewrite prime_decm_2 by exact Hh. unfold Rminus. apply partial_Rplus.
    + apply (lin_2 n (fun i => klog (ko i)) (fun i => klog (ki i)) (fun i => klog (so i)) (fun i => klog (si i))); [exact Hh|].
      apply klog_derive; exact S2.
    + apply (pairsum_out n gL x h); auto. unfold Row_out. rewrite rsum_skip_opp. apply row_out_2; [exact Hh|].
      intros j Hj Hjh. apply gL_bo. apply (decm_pairok n x h j HD); auto.
  - rewrite prime_decm_3 by exact Hh. unfold Rminus. apply partial_Rplus.
    + apply (lin_3 n (fun i => klog (ko i)) (fun i => klog (ki i)) (fun i => klog (so i)) (fun i => klog (si i))); [exact Hh|].
      apply klog_derive; exact S3.
    + apply (pairsum_in n gL x h); auto. unfold Row_in. rewrite rsum_skip_opp. apply row_in_3; [exact Hh|].
      intros j Hj Hjh. apply gL_bi. apply (decm_pairok n x j h HD); auto.
Qed.

(** * Hessian *)

Lemma partial_kd_own k x r : (k <> 0 -> 0 < x r) -> partial (fun z => kd k (z r)) x r (kd2 k (x r)).
Proof.
  intros H. unfold partial. eapply is_derive_fext; [|apply kd_derive; exact H].
  intros u. cbv beta. rewrite upd_eq. reflexivity.
Qed.
Lemma partial_kd_other k x r r' : r <> r' -> partial (fun z => kd k (z r)) x r' 0.
Proof.
  intros H. unfold partial. apply (is_derive_fext (fun _ : R => kd k (x r))); [|apply is_derive_R0].
  intros u. rewrite upd_neq by auto. reflexivity.
Qed.

Ltac hfield HD i j :=
  let F := fresh "F" in
  pose proof (decm_pairok _ _ i j HD ltac:(lia) ltac:(lia) ltac:(lia)) as F; destruct F as [? ?];
  field; repeat split; lra.

Lemma hess_decm_00 n ko ki so si x h t :
  (h < n)%nat -> (t < n)%nat -> decm_dom n x -> decm_supp n ko ki so si x ->
  partial (fun z => loglikelihood_prime_decm n ko ki so si z h) x t
    (loglikelihood_hessian_decm n ko ki so si x h t).
Proof.
  intros Hh Ht HD HS. destruct (HS h Hh) as (S0 & S1 & S2 & S3).
  apply (partial_ext (fun z => kd (ko h) (z h%nat) - Row_out n g_ao h z));
    [intros z; symmetry; apply prime_decm_0; exact Hh|].
  unfold loglikelihood_hessian_decm.
  rewrite (blk0 n h Hh), (pos0 n h Hh), (blk0 n t Ht), (pos0 n t Ht). cbv beta iota zeta.
  destruct (Nat.eqb_spec h t) as [<-|Hne].
  - eapply partial_eq; [apply partial_Rminus; [apply partial_kd_own; exact S0|apply (row_out_0 n g_ao x h Hh);
      intros j Hj Hjh; apply g_ao_ao; apply (decm_pairok n x h j HD); auto]|].
    cbv beta. match goal with |- ?K - rsum n (fun j => if _ then 0 else @?G j) = loop n ?a ?F =>
      rewrite (loop_add n a F (fun j => if Nat.eqb h j then 0 else - G j)) end.
    + rewrite <- rsum_skip_opp. unfold kd2. ring.
    + intros j acc Hj. rewrite Nat.eqb_sym. destruct (Nat.eqb_spec h j) as [E|E]; cbn [negb]; [ring|].
      hfield HD h j.
  - eapply partial_eq; [apply partial_Rminus; [apply partial_kd_other; lia|
      apply (row_out_none n g_ao x h Hh); try lia; intros; lia]|ring].
Qed.

Lemma hess_decm_01 n ko ki so si x h t :
  (h < n)%nat -> (t < n)%nat -> decm_dom n x -> decm_supp n ko ki so si x ->
  partial (fun z => loglikelihood_prime_decm n ko ki so si z h) x (t + n)
    (loglikelihood_hessian_decm n ko ki so si x h (t + n)).
Proof.
  intros Hh Ht HD HS. destruct (HS h Hh) as (S0 & S1 & S2 & S3).
  apply (partial_ext (fun z => kd (ko h) (z h%nat) - Row_out n g_ao h z));
    [intros z; symmetry; apply prime_decm_0; exact Hh|].
  unfold loglikelihood_hessian_decm.
  rewrite (blk0 n h Hh), (pos0 n h Hh), (blk1 n t Ht), (pos1 n t Ht). cbv beta iota zeta.
  destruct (Nat.eqb_spec h t) as [<-|Hne].
  - eapply partial_eq; [apply partial_Rminus; [apply partial_kd_other; lia|
      apply (row_out_none n g_ao x h Hh); try lia; intros; lia]|ring].
  - eapply partial_eq; [apply partial_Rminus; [apply partial_kd_other; lia|apply (row_out_1 n g_ao x h Hh t);
      [exact Ht|auto|apply g_ao_ai; apply (decm_pairok n x h t HD); auto]]|].
    hfield HD h t.
Qed.

Lemma hess_decm_02 n ko ki so si x h t :
  (h < n)%nat -> (t < n)%nat -> decm_dom n x -> decm_supp n ko ki so si x ->
  partial (fun z => loglikelihood_prime_decm n ko ki so si z h) x (t + 2 * n)
    (loglikelihood_hessian_decm n ko ki so si x h (t + 2 * n)).
Proof.
  intros Hh Ht HD HS. destruct (HS h Hh) as (S0 & S1 & S2 & S3).
  apply (partial_ext (fun z => kd (ko h) (z h%nat) - Row_out n g_ao h z));
    [intros z; symmetry; apply prime_decm_0; exact Hh|].
  unfold loglikelihood_hessian_decm.
  rewrite (blk0 n h Hh), (pos0 n h Hh), (blk2 n t Ht), (pos2 n t Ht). cbv beta iota zeta.
  destruct (Nat.eqb_spec h t) as [<-|Hne].
  - eapply partial_eq; [apply partial_Rminus; [apply partial_kd_other; lia|apply (row_out_2 n g_ao x h Hh);
      intros j Hj Hjh; apply g_ao_bo; apply (decm_pairok n x h j HD); auto]|].
    cbv beta. match goal with |- ?K - rsum n (fun j => if _ then 0 else @?G j) = loop n ?a ?F =>
      rewrite (loop_add n a F (fun j => if Nat.eqb h j then 0 else - G j)) end.
    + rewrite <- rsum_skip_opp. unfold kd2. ring.
    + intros j acc Hj. rewrite Nat.eqb_sym. destruct (Nat.eqb_spec h j) as [E|E]; cbn [negb]; [ring|].
      hfield HD h j.
  - eapply partial_eq; [apply partial_Rminus; [apply partial_kd_other; lia|
      apply (row_out_none n g_ao x h Hh); try lia; intros; lia]|ring].
Qed.

Lemma hess_decm_03 n ko ki so si x h t :
  (h < n)%nat -> (t < n)%nat -> decm_dom n x -> decm_supp n ko ki so si x ->
  partial (fun z => loglikelihood_prime_decm n ko ki so si z h) x (t + 3 * n)
    (loglikelihood_hessian_decm n ko ki so si x h (t + 3 * n)).
Proof.
  intros Hh Ht HD HS. destruct (HS h Hh) as (S0 & S1 & S2 & S3).
  apply (partial_ext (fun z => kd (ko h) (z h%nat) - Row_out n g_ao h z));
    [intros z; symmetry; apply prime_decm_0; exact Hh|].
  unfold loglikelihood_hessian_decm.
  rewrite (blk0 n h Hh), (pos0 n h Hh), (blk3 n t Ht), (pos3 n t Ht). cbv beta iota zeta.
  destruct (Nat.eqb_spec h t) as [<-|Hne].
  - eapply partial_eq; [apply partial_Rminus; [apply partial_kd_other; lia|
      apply (row_out_none n g_ao x h Hh); try lia; intros; lia]|ring].
  - eapply partial_eq; [apply partial_Rminus; [apply partial_kd_other; lia|apply (row_out_3 n g_ao x h Hh t);
      [exact Ht|auto|apply g_ao_bi; apply (decm_pairok n x h t HD); auto]]|].
    hfield HD h t.
Qed.

Lemma hess_decm_10 n ko ki so si x h t :
  (h < n)%nat -> (t < n)%nat -> decm_dom n x -> decm_supp n ko ki so si x ->
  partial (fun z => loglikelihood_prime_decm n ko ki so si z (h + n)) x t
    (loglikelihood_hessian_decm n ko ki so si x (h + n) t).
Proof.
  intros Hh Ht HD HS. destruct (HS h Hh) as (S0 & S1 & S2 & S3).
  apply (partial_ext (fun z => kd (ki h) (z (h + n)%nat) - Row_in n g_ai h z));
    [intros z; symmetry; apply prime_decm_1; exact Hh|].
  unfold loglikelihood_hessian_decm.
  rewrite (blk1 n h Hh), (pos1 n h Hh), (blk0 n t Ht), (pos0 n t Ht). cbv beta iota zeta.
  destruct (Nat.eqb_spec h t) as [<-|Hne].
  - eapply partial_eq; [apply partial_Rminus; [apply partial_kd_other; lia|
      apply (row_in_none n g_ai x h Hh); try lia; intros; lia]|ring].
  - eapply partial_eq; [apply partial_Rminus; [apply partial_kd_other; lia|apply (row_in_0 n g_ai x h Hh t);
      [exact Ht|auto|apply g_ai_ao; apply (decm_pairok n x t h HD); auto]]|].
    hfield HD t h.
Qed.

Lemma hess_decm_11 n ko ki so si x h t :
  (h < n)%nat -> (t < n)%nat -> decm_dom n x -> decm_supp n ko ki so si x ->
  partial (fun z => loglikelihood_prime_decm n ko ki so si z (h + n)) x (t + n)
    (loglikelihood_hessian_decm n ko ki so si x (h + n) (t + n)).
Proof.
  intros Hh Ht HD HS. destruct (HS h Hh) as (S0 & S1 & S2 & S3).
  apply (partial_ext (fun z => kd (ki h) (z (h + n)%nat) - Row_in n g_ai h z));
    [intros z; symmetry; apply prime_decm_1; exact Hh|].
  unfold loglikelihood_hessian_decm.
  rewrite (blk1 n h Hh), (pos1 n h Hh), (blk1 n t Ht), (pos1 n t Ht). cbv beta iota zeta.
  destruct (Nat.eqb_spec h t) as [<-|Hne].
  - eapply partial_eq; [apply partial_Rminus; [apply partial_kd_own; exact S1|apply (row_in_1 n g_ai x h Hh);
      intros j Hj Hjh; apply g_ai_ai; apply (decm_pairok n x j h HD); auto]|].
    cbv beta. match goal with |- ?K - rsum n (fun j => if _ then 0 else @?G j) = loop n ?a ?F =>
      rewrite (loop_add n a F (fun j => if Nat.eqb h j then 0 else - G j)) end.
    + rewrite <- rsum_skip_opp. unfold kd2. ring.
    + intros j acc Hj. rewrite Nat.eqb_sym. destruct (Nat.eqb_spec h j) as [E|E]; cbn [negb]; [ring|].
      hfield HD j h.
  - eapply partial_eq; [apply partial_Rminus; [apply partial_kd_other; lia|
      apply (row_in_none n g_ai x h Hh); try lia; intros; lia]|ring].
Qed.

Lemma hess_decm_12 n ko ki so si x h t :
  (h < n)%nat -> (t < n)%nat -> decm_dom n x -> decm_supp n ko ki so si x ->
  partial (fun z => loglikelihood_prime_decm n ko ki so si z (h + n)) x (t + 2 * n)
    (loglikelihood_hessian_decm n ko ki so si x (h + n) (t + 2 * n)).
Proof.
  intros Hh Ht HD HS. destruct (HS h Hh) as (S0 & S1 & S2 & S3).
  apply (partial_ext (fun z => kd (ki h) (z (h + n)%nat) - Row_in n g_ai h z));
    [intros z; symmetry; apply prime_decm_1; exact Hh|].
  unfold loglikelihood_hessian_decm.
  rewrite (blk1 n h Hh), (pos1 n h Hh), (blk2 n t Ht), (pos2 n t Ht). cbv beta iota zeta.
  destruct (Nat.eqb_spec h t) as [<-|Hne].
  - eapply partial_eq; [apply partial_Rminus; [apply partial_kd_other; lia|
      apply (row_in_none n g_ai x h Hh); try lia; intros; lia]|ring].
  - eapply partial_eq; [apply partial_Rminus; [apply partial_kd_other; lia|apply (row_in_2 n g_ai x h Hh t);
      [exact Ht|auto|apply g_ai_bo; apply (decm_pairok n x t h HD); auto]]|].
    hfield HD t h.
Qed.

Lemma hess_decm_13 n ko ki so si x h t :
  (h < n)%nat -> (t < n)%nat -> decm_dom n x -> decm_supp n ko ki so si x ->
  partial (fun z => loglikelihood_prime_decm n ko ki so si z (h + n)) x (t + 3 * n)
    (loglikelihood_hessian_decm n ko ki so si x (h + n) (t + 3 * n)).
Proof.
  intros Hh Ht HD HS. destruct (HS h Hh) as (S0 & S1 & S2 & S3).
  apply (partial_ext (fun z => kd (ki h) (z (h + n)%nat) - Row_in n g_ai h z));
    [intros z; symmetry; apply prime_decm_1; exact Hh|].
  unfold loglikelihood_hessian_decm.
  rewrite (blk1 n h Hh), (pos1 n h Hh), (blk3 n t Ht), (pos3 n t Ht). cbv beta iota zeta.
  destruct (Nat.eqb_spec h t) as [<-|Hne].
  - eapply partial_eq; [apply partial_Rminus; [apply partial_kd_other; lia|apply (row_in_3 n g_ai x h Hh);
      intros j Hj Hjh; apply g_ai_bi; apply (decm_pairok n x j h HD); auto]|].
    cbv beta. match goal with |- ?K - rsum n (fun j => if _ then 0 else @?G j) = loop n ?a ?F =>
      rewrite (loop_add n a F (fun j => if Nat.eqb h j then 0 else - G j)) end.
    + rewrite <- rsum_skip_opp. unfold kd2. ring.
    + intros j acc Hj. rewrite Nat.eqb_sym. destruct (Nat.eqb_spec h j) as [E|E]; cbn [negb]; [ring|].
      hfield HD j h.
  - eapply partial_eq; [apply partial_Rminus; [apply partial_kd_other; lia|
      apply (row_in_none n g_ai x h Hh); try lia; intros; lia]|ring].
Qed.

Lemma hess_decm_20 n ko ki so si x h t :
  (h < n)%nat -> (t < n)%nat -> decm_dom n x -> decm_supp n ko ki so si x ->
  partial (fun z => loglikelihood_prime_decm n ko ki so si z (h + 2 * n)) x t
    (loglikelihood_hessian_decm n ko ki so si x (h + 2 * n) t).
Proof.
  intros Hh Ht HD HS. destruct (HS h Hh) as (S0 & S1 & S2 & S3).
  apply (partial_ext (fun z => kd (so h) (z (h + 2 * n)%nat) - Row_out n g_bo h z));
    [intros z; symmetry; apply prime_decm_2; exact Hh|].
  unfold loglikelihood_hessian_decm.
  rewrite (blk2 n h Hh), (pos2 n h Hh), (blk0 n t Ht), (pos0 n t Ht). cbv beta iota zeta.
  destruct (Nat.eqb_spec h t) as [<-|Hne].
  - eapply partial_eq; [apply partial_Rminus; [apply partial_kd_other; lia|apply (row_out_0 n g_bo x h Hh);
      intros j Hj Hjh; apply g_bo_ao; apply (decm_pairok n x h j HD); auto]|].
    cbv beta. match goal with |- ?K - rsum n (fun j => if _ then 0 else @?G j) = loop n ?a ?F =>
      rewrite (loop_add n a F (fun j => if Nat.eqb h j then 0 else - G j)) end.
    + rewrite <- rsum_skip_opp. unfold kd2. ring.
    + intros j acc Hj. rewrite Nat.eqb_sym. destruct (Nat.eqb_spec h j) as [E|E]; cbn [negb]; [ring|].
      hfield HD h j.
  - eapply partial_eq; [apply partial_Rminus; [apply partial_kd_other; lia|
      apply (row_out_none n g_bo x h Hh); try lia; intros; lia]|ring].
Qed.

Lemma hess_decm_21 n ko ki so si x h t :
  (h < n)%nat -> (t < n)%nat -> decm_dom n x -> decm_supp n ko ki so si x ->
  partial (fun z => loglikelihood_prime_decm n ko ki so si z (h + 2 * n)) x (t + n)
    (loglikelihood_hessian_decm n ko ki so si x (h + 2 * n) (t + n)).
Proof.
  intros Hh Ht HD HS. destruct (HS h Hh) as (S0 & S1 & S2 & S3).
  apply (partial_ext (fun z => kd (so h) (z (h + 2 * n)%nat) - Row_out n g_bo h z));
    [intros z; symmetry; apply prime_decm_2; exact Hh|].
  unfold loglikelihood_hessian_decm.
  rewrite (blk2 n h Hh), (pos2 n h Hh), (blk1 n t Ht), (pos1 n t Ht). cbv beta iota zeta.
  destruct (Nat.eqb_spec h t) as [<-|Hne].
  - eapply partial_eq; [apply partial_Rminus; [apply partial_kd_other; lia|
      apply (row_out_none n g_bo x h Hh); try lia; intros; lia]|ring].
  - eapply partial_eq; [apply partial_Rminus; [apply partial_kd_other; lia|apply (row_out_1 n g_bo x h Hh t);
      [exact Ht|auto|apply g_bo_ai; apply (decm_pairok n x h t HD); auto]]|].
    hfield HD h t.
Qed.

Lemma hess_decm_22 n ko ki so si x h t :
  (h < n)%nat -> (t < n)%nat -> decm_dom n x -> decm_supp n ko ki so si x ->
  partial (fun z => loglikelihood_prime_decm n ko ki so si z (h + 2 * n)) x (t + 2 * n)
    (loglikelihood_hessian_decm n ko ki so si x (h + 2 * n) (t + 2 * n)).
Proof.
  intros Hh Ht HD HS. destruct (HS h Hh) as (S0 & S1 & S2 & S3).
  apply (partial_ext (fun z => kd (so h) (z (h + 2 * n)%nat) - Row_out n g_bo h z));
    [intros z; symmetry; apply prime_decm_2; exact Hh|].
  unfold loglikelihood_hessian_decm.
  rewrite (blk2 n h Hh), (pos2 n h Hh), (blk2 n t Ht), (pos2 n t Ht). cbv beta iota zeta.
  destruct (Nat.eqb_spec h t) as [<-|Hne].
  - eapply partial_eq; [apply partial_Rminus; [apply partial_kd_own; exact S2|apply (row_out_2 n g_bo x h Hh);
      intros j Hj Hjh; apply g_bo_bo; apply (decm_pairok n x h j HD); auto]|].
    cbv beta. match goal with |- ?K - rsum n (fun j => if _ then 0 else @?G j) = loop n ?a ?F =>
      rewrite (loop_add n a F (fun j => if Nat.eqb h j then 0 else - G j)) end.
    + rewrite <- rsum_skip_opp. unfold kd2. ring.
    + intros j acc Hj. rewrite Nat.eqb_sym. destruct (Nat.eqb_spec h j) as [E|E]; cbn [negb]; [ring|].
      hfield HD h j.
  - eapply partial_eq; [apply partial_Rminus; [apply partial_kd_other; lia|
      apply (row_out_none n g_bo x h Hh); try lia; intros; lia]|ring].
Qed.

Lemma hess_decm_23 n ko ki so si x h t :
  (h < n)%nat -> (t < n)%nat -> decm_dom n x -> decm_supp n ko ki so si x ->
  partial (fun z => loglikelihood_prime_decm n ko ki so si z (h + 2 * n)) x (t + 3 * n)
    (loglikelihood_hessian_decm n ko ki so si x (h + 2 * n) (t + 3 * n)).
Proof.
  intros Hh Ht HD HS. destruct (HS h Hh) as (S0 & S1 & S2 & S3).
  apply (partial_ext (fun z => kd (so h) (z (h + 2 * n)%nat) - Row_out n g_bo h z));
    [intros z; symmetry; apply prime_decm_2; exact Hh|].
  unfold loglikelihood_hessian_decm.
  rewrite (blk2 n h Hh), (pos2 n h Hh), (blk3 n t Ht), (pos3 n t Ht). cbv beta iota zeta.
  destruct (Nat.eqb_spec h t) as [<-|Hne].
  - eapply partial_eq; [apply partial_Rminus; [apply partial_kd_other; lia|
      apply (row_out_none n g_bo x h Hh); try lia; intros; lia]|ring].
  - eapply partial_eq; [apply partial_Rminus; [apply partial_kd_other; lia|apply (row_out_3 n g_bo x h Hh t);
      [exact Ht|auto|apply g_bo_bi; apply (decm_pairok n x h t HD); auto]]|].
    hfield HD h t.
Qed.

Lemma hess_decm_30 n ko ki so si x h t :
  (h < n)%nat -> (t < n)%nat -> decm_dom n x -> decm_supp n ko ki so si x ->
  partial (fun z => loglikelihood_prime_decm n ko ki so si z (h + 3 * n)) x t
    (loglikelihood_hessian_decm n ko ki so si x (h + 3 * n) t).
Proof.
  intros Hh Ht HD HS. destruct (HS h Hh) as (S0 & S1 & S2 & S3).
  apply (partial_ext (fun z => kd (si h) (z (h + 3 * n)%nat) - Row_in n g_bi h z));
    [intros z; symmetry; apply prime_decm_3; exact Hh|].
  unfold loglikelihood_hessian_decm.
  rewrite (blk3 n h Hh), (pos3 n h Hh), (blk0 n t Ht), (pos0 n t Ht). cbv beta iota zeta.
  destruct (Nat.eqb_spec h t) as [<-|Hne].
  - eapply partial_eq; [apply partial_Rminus; [apply partial_kd_other; lia|
      apply (row_in_none n g_bi x h Hh); try lia; intros; lia]|ring].
  - eapply partial_eq; [apply partial_Rminus; [apply partial_kd_other; lia|apply (row_in_0 n g_bi x h Hh t);
      [exact Ht|auto|apply g_bi_ao; apply (decm_pairok n x t h HD); auto]]|].
    hfield HD t h.
Qed.

Lemma hess_decm_31 n ko ki so si x h t :
  (h < n)%nat -> (t < n)%nat -> decm_dom n x -> decm_supp n ko ki so si x ->
  partial (fun z => loglikelihood_prime_decm n ko ki so si z (h + 3 * n)) x (t + n)
    (loglikelihood_hessian_decm n ko ki so si x (h + 3 * n) (t + n)).
Proof.
  intros Hh Ht HD HS. destruct (HS h Hh) as (S0 & S1 & S2 & S3).
  apply (partial_ext (fun z => kd (si h) (z (h + 3 * n)%nat) - Row_in n g_bi h z));
    [intros z; symmetry; apply prime_decm_3; exact Hh|].
  unfold loglikelihood_hessian_decm.
  rewrite (blk3 n h Hh), (pos3 n h Hh), (blk1 n t Ht), (pos1 n t Ht). cbv beta iota zeta.
  destruct (Nat.eqb_spec h t) as [<-|Hne].
  - eapply partial_eq; [apply partial_Rminus; [apply partial_kd_other; lia|apply (row_in_1 n g_bi x h Hh);
      intros j Hj Hjh; apply g_bi_ai; apply (decm_pairok n x j h HD); auto]|].
    cbv beta. match goal with |- ?K - rsum n (fun j => if _ then 0 else @?G j) = loop n ?a ?F =>
      rewrite (loop_add n a F (fun j => if Nat.eqb h j then 0 else - G j)) end.
    + rewrite <- rsum_skip_opp. unfold kd2. ring.
    + intros j acc Hj. rewrite Nat.eqb_sym. destruct (Nat.eqb_spec h j) as [E|E]; cbn [negb]; [ring|].
      hfield HD j h.
  - eapply partial_eq; [apply partial_Rminus; [apply partial_kd_other; lia|
      apply (row_in_none n g_bi x h Hh); try lia; intros; lia]|ring].
Qed.

Lemma hess_decm_32 n ko ki so si x h t :
  (h < n)%nat -> (t < n)%nat -> decm_dom n x -> decm_supp n ko ki so si x ->
  partial (fun z => loglikelihood_prime_decm n ko ki so si z (h + 3 * n)) x (t + 2 * n)
    (loglikelihood_hessian_decm n ko ki so si x (h + 3 * n) (t + 2 * n)).
Proof.
  intros Hh Ht HD HS. destruct (HS h Hh) as (S0 & S1 & S2 & S3).
  apply (partial_ext (fun z => kd (si h) (z (h + 3 * n)%nat) - Row_in n g_bi h z));
    [intros z; symmetry; apply prime_decm_3; exact Hh|].
  unfold loglikelihood_hessian_decm.
  rewrite (blk3 n h Hh), (pos3 n h Hh), (blk2 n t Ht), (pos2 n t Ht). cbv beta iota zeta.
  destruct (Nat.eqb_spec h t) as [<-|Hne].
  - eapply partial_eq; [apply partial_Rminus; [apply partial_kd_other; lia|
      apply (row_in_none n g_bi x h Hh); try lia; intros; lia]|ring].
  - eapply partial_eq; [apply partial_Rminus; [apply partial_kd_other; lia|apply (row_in_2 n g_bi x h Hh t);
      [exact Ht|auto|apply g_bi_bo; apply (decm_pairok n x t h HD); auto]]|].
    hfield HD t h.
Qed.

Lemma hess_decm_33 n ko ki so si x h t :
  (h < n)%nat -> (t < n)%nat -> decm_dom n x -> decm_supp n ko ki so si x ->
  partial (fun z => loglikelihood_prime_decm n ko ki so si z (h + 3 * n)) x (t + 3 * n)
    (loglikelihood_hessian_decm n ko ki so si x (h + 3 * n) (t + 3 * n)).
Proof.
  intros Hh Ht HD HS. destruct (HS h Hh) as (S0 & S1 & S2 & S3).
  apply (partial_ext (fun z => kd (si h) (z (h + 3 * n)%nat) - Row_in n g_bi h z));
    [intros z; symmetry; apply prime_decm_3; exact Hh|].
  unfold loglikelihood_hessian_decm.
  rewrite (blk3 n h Hh), (pos3 n h Hh), (blk3 n t Ht), (pos3 n t Ht). cbv beta iota zeta.
  destruct (Nat.eqb_spec h t) as [<-|Hne].
  - eapply partial_eq; [apply partial_Rminus; [apply partial_kd_own; exact S3|apply (row_in_3 n g_bi x h Hh);
      intros j Hj Hjh; apply g_bi_bi; apply (decm_pairok n x j h HD); auto]|].
    cbv beta. match goal with |- ?K - rsum n (fun j => if _ then 0 else @?G j) = loop n ?a ?F =>
      rewrite (loop_add n a F (fun j => if Nat.eqb h j then 0 else - G j)) end.
    + rewrite <- rsum_skip_opp. unfold kd2. ring.
    + intros j acc Hj. rewrite Nat.eqb_sym. destruct (Nat.eqb_spec h j) as [E|E]; cbn [negb]; [ring|].
      hfield HD j h.
  - eapply partial_eq; [apply partial_Rminus; [apply partial_kd_other; lia|
      apply (row_in_none n g_bi x h Hh); try lia; intros; lia]|ring].
Qed.

Lemma hessian_decm_correct n ko ki so si x r u :
  (r < 4 * n)%nat -> (u < 4 * n)%nat -> decm_dom n x -> decm_supp n ko ki so si x ->
  partial (fun z => loglikelihood_prime_decm n ko ki so si z r) x u
    (loglikelihood_hessian_decm n ko ki so si x r u).
Proof.
  intros Hr Hu HD HS. revert r Hr u Hu.
  apply (coord4 n (fun r => forall u, (u < 4 * n)%nat -> partial (fun z => loglikelihood_prime_decm n ko ki so si z r) x u
    (loglikelihood_hessian_decm n ko ki so si x r u))); intros h Hh; apply coord4; intros t Ht.
  - apply hess_decm_00; assumption.
  - apply hess_decm_01; assumption.
  - apply hess_decm_02; assumption.
  - apply hess_decm_03; assumption.
  - apply hess_decm_10; assumption.
  - apply hess_decm_11; assumption.
  - apply hess_decm_12; assumption.
  - apply hess_decm_13; assumption.
  - apply hess_decm_20; assumption.
  - apply hess_decm_21; assumption.
  - apply hess_decm_22; assumption.
  - apply hess_decm_23; assumption.
  - apply hess_decm_30; assumption.
  - apply hess_decm_31; assumption.
  - apply hess_decm_32; assumption.
  - apply hess_decm_33; assumption.
Qed.

(** * Hessian diagonal *)

Lemma diag_decm_eq n ko ki so si x r :
  (r < 4 * n)%nat -> decm_dom n x ->
  ((3 * n <= r)%nat -> si (r - 3 * n)%nat <> 0) ->
  loglikelihood_hessian_diag_decm n ko ki so si x r = loglikelihood_hessian_decm n ko ki so si x r r.
Proof.
  intros Hr HD. revert r Hr.
  apply (coord4 n (fun r => ((3 * n <= r)%nat -> si (r - 3 * n)%nat <> 0) -> loglikelihood_hessian_diag_decm n ko ki so si x r =
    loglikelihood_hessian_decm n ko ki so si x r r)); intros h Hh HS;
  unfold loglikelihood_hessian_diag_decm, loglikelihood_hessian_decm.
  - rewrite by_block0, blk0, pos0, Nat.eqb_refl by exact Hh. cbv beta iota zeta. rewrite loop_add_skip, loop_add_skip'.
    match goal with |- context [0 + rsum n ?F] => match goal with |- _ = _ + rsum n ?G => replace (rsum n G) with (rsum n F) end end.
    + destruct (Req_EM_T (ko h) 0); ring.
    + apply rsum_ext. intros j Hj. destruct (Nat.eqb_spec h j) as [E|E]; [reflexivity|]. hfield HD h j.
  - rewrite by_block1, blk1, pos1, Nat.eqb_refl by exact Hh. cbv beta iota zeta. rewrite loop_add_skip, loop_add_skip'.
    match goal with |- context [0 + rsum n ?F] => match goal with |- _ = _ + rsum n ?G => replace (rsum n G) with (rsum n F) end end.
    + destruct (Req_EM_T (ki h) 0); ring.
    + apply rsum_ext. intros j Hj. destruct (Nat.eqb_spec h j) as [E|E]; [reflexivity|]. hfield HD j h.
  - rewrite by_block2, blk2, pos2, Nat.eqb_refl by exact Hh. cbv beta iota zeta. rewrite loop_add_skip.
    match goal with |- context [0 + rsum n ?F] => match goal with |- _ = loop n ?a ?G => rewrite (loop_sub n a G F) end end.
    + destruct (Req_EM_T (so h) 0); ring.
    + intros j acc Hj. rewrite Nat.eqb_sym. destruct (Nat.eqb_spec h j) as [E|E]; cbn [negb]; [ring|]. hfield HD h j.
  - rewrite by_block3, blk3, pos3, Nat.eqb_refl by exact Hh. cbv beta iota zeta. rewrite loop_add_skip.
    match goal with |- context [0 + rsum n ?F] => match goal with |- _ = loop n ?a ?G => rewrite (loop_sub n a G F) end end.
    + destruct (Req_EM_T (si h) 0) as [E|E].
      * exfalso. apply HS; [lia|]. replace (h + 3 * n - 3 * n)%nat with h by lia. exact E.
      * ring.
    + intros j acc Hj. rewrite Nat.eqb_sym. destruct (Nat.eqb_spec h j) as [E|E]; cbn [negb]; [ring|]. hfield HD j h.
Qed.

Lemma diag_decm_neg n ko ki so si x h :
  (h < n)%nat -> decm_dom n x -> si h = 0 ->
  loglikelihood_hessian_diag_decm n ko ki so si x (h + 3 * n) =
  - loglikelihood_hessian_decm n ko ki so si x (h + 3 * n) (h + 3 * n).
Proof.
  intros Hh HD Hs. unfold loglikelihood_hessian_diag_decm, loglikelihood_hessian_decm.
  rewrite by_block3, blk3, pos3, Nat.eqb_refl by exact Hh. cbv beta iota zeta. rewrite loop_add_skip.
  match goal with |- context [0 + rsum n ?F] => match goal with |- _ = - loop n ?a ?G => rewrite (loop_sub n a G F) end end.
  - destruct (Req_EM_T (si h) 0) as [E|E]; [ring|contradiction].
  - intros j acc Hj. rewrite Nat.eqb_sym. destruct (Nat.eqb_spec h j) as [E|E]; cbn [negb]; [ring|]. hfield HD j h.
Qed.

Lemma hessian_diag_decm_iff n ko ki so si x r :
  (r < 4 * n)%nat -> decm_dom n x -> decm_supp n ko ki so si x ->
  (partial (fun z => loglikelihood_prime_decm n ko ki so si z r) x r
     (loglikelihood_hessian_diag_decm n ko ki so si x r)
   <-> ((3 * n <= r)%nat -> si (r - 3 * n)%nat = 0 -> loglikelihood_hessian_decm n ko ki so si x r r = 0)).
Proof.
  intros Hr HD HS. pose proof (hessian_decm_correct n ko ki so si x r r Hr Hr HD HS) as HH.
  destruct (Nat.le_gt_cases (3 * n) r) as [Hge|Hlt].
  - destruct (Req_EM_T (si (r - 3 * n)%nat) 0) as [E|E].
    + replace r with (r - 3 * n + 3 * n)%nat in HH |- * by lia.
      rewrite diag_decm_neg by (try lia; auto).
      replace (r - 3 * n + 3 * n - 3 * n)%nat with (r - 3 * n)%nat by lia.
      split.
      * intros HP _ _. pose proof (partial_unique _ _ _ _ _ HP HH). lra.
      * intros H. rewrite (H ltac:(lia) E) in HH |- *. rewrite Ropp_0. exact HH.
    + rewrite diag_decm_eq by auto. split; [intros _ _ H; contradiction|intros _; exact HH].
  - rewrite diag_decm_eq by (auto; lia). split; [intros _ H; lia|intros _; exact HH].
Qed.

(** At points where the in-degree parameter of such a node vanishes (the
    library's initial guesses) the sign does not matter. *)
Lemma hessian_decm_zero n ko ki so si x h :
  (h < n)%nat -> decm_dom n x -> si h = 0 -> x (h + n)%nat = 0 ->
  loglikelihood_hessian_decm n ko ki so si x (h + 3 * n) (h + 3 * n) = 0.
Proof.
  intros Hh HD Hs H0. unfold loglikelihood_hessian_decm.
  rewrite blk3, pos3, Nat.eqb_refl by exact Hh. cbv beta iota zeta.
  match goal with |- loop n ?a ?G = _ => rewrite (loop_add n a G (fun _ => 0)) end.
  - rewrite rsum_0. destruct (Req_EM_T (si h) 0); [ring|contradiction].
  - intros j acc Hj. rewrite Nat.eqb_sym. destruct (Nat.eqb_spec h j) as [E|E]; cbn [negb]; [ring|].
    rewrite H0. pose proof (decm_pairok _ _ j h HD ltac:(lia) ltac:(lia) ltac:(lia)) as [? ?].
    rewrite H0 in *. field. lra.
Qed.

Definition link2 (i : nat) : R := match i with O => 1 | _ => 0 end.
Definition link2' (i : nat) : R := match i with 1%nat => 1 | _ => 0 end.

Lemma half_dom : decm_dom 2 (fun _ => 1 / 2).
Proof. split; intros; lra. Qed.
Lemma half_supp ko ki so si : decm_supp 2 ko ki so si (fun _ => 1 / 2).
Proof. intros i Hi. repeat split; intros; lra. Qed.

Lemma hessian_diag_decm_refuted :
  exists n ko ki so si x r, (r < 4 * n)%nat /\ decm_dom n x /\ decm_supp n ko ki so si x /\
    ~ partial (fun z => loglikelihood_prime_decm n ko ki so si z r) x r
        (loglikelihood_hessian_diag_decm n ko ki so si x r).
Proof.
  exists 2%nat, link2, link2', link2, link2', (fun _ => 1 / 2), 6%nat.
  split; [lia|]. split; [exact half_dom|]. split; [apply half_supp|].
  intros HP.
  pose proof (proj1 (hessian_diag_decm_iff 2 link2 link2' link2 link2' (fun _ => 1 / 2) 6 ltac:(lia) half_dom
    (half_supp _ _ _ _)) HP ltac:(lia) eq_refl) as H. revert H. clear HP.
  unfold loglikelihood_hessian_decm, blk, pos. simpl. rewrite !loop_S, loop_0. simpl.
  destruct (Req_EM_T 0 0); [|lra]. intros H.
  assert (E : 0 - 1 / 2 / (1 - 1 / 2 * (1 / 2)) * (1 / 2 / (1 - 1 / 2 * (1 / 2)) * 1) = - (4/9)) by field.
  lra.
Qed.

(** * Exponential version *)

Definition gLe (ao bo ai bi : R) : R :=
  - ln (1 + exp (- ao - ai) * exp (- bo - bi) / (1 - exp (- bo - bi))).
Definition he_a (ao bo ai bi : R) : R :=
  exp (- bo) * exp (- bi) * (exp (- ao) * exp (- ai))
  / (1 - exp (- bo) * exp (- bi) + exp (- bo) * exp (- bi) * (exp (- ao) * exp (- ai))).
Definition he_b (ao bo ai bi : R) : R :=
  exp (- bo) * exp (- bi) * (exp (- ao) * exp (- ai))
  / ((1 - exp (- bo) * exp (- bi) + exp (- bo) * exp (- bi) * (exp (- ao) * exp (- ai)))
     * (1 - exp (- bo) * exp (- bi))).

Lemma pairok_exp ao bo ai bi : 0 < bo + bi ->
  0 < exp (- ao) /\ 0 < exp (- ai) /\ 0 < exp (- bo) /\ 0 < exp (- bi) /\
  0 < 1 - exp (- bo) * exp (- bi) /\
  0 < exp (- bo) * exp (- bi) * (exp (- ao) * exp (- ai)) /\
  0 < 1 - exp (- bo) * exp (- bi) + exp (- bo) * exp (- bi) * (exp (- ao) * exp (- ai)).
Proof.
  intros H. pose proof (exp_opp_mult_lt1 bo bi H).
  pose proof (exp_pos (- ao)). pose proof (exp_pos (- ai)). pose proof (exp_pos (- bo)). pose proof (exp_pos (- bi)).
  assert (0 < exp (- bo) * exp (- bi) * (exp (- ao) * exp (- ai)))
    by (repeat apply Rmult_lt_0_compat; assumption).
  repeat split; lra.
Qed.

Lemma gLe_alt ao bo ai bi : 0 < bo + bi ->
  gLe ao bo ai bi = gL (exp (- ao)) (exp (- bo)) (exp (- ai)) (exp (- bi)).
Proof.
  intros H. destruct (pairok_exp ao bo ai bi H) as (? & ? & ? & ? & ? & ? & ?).
  unfold gLe, gL.
  replace (- ao - ai) with (- ao + - ai) by ring. replace (- bo - bi) with (- bo + - bi) by ring.
  rewrite !exp_plus.
  replace (1 + exp (- ao) * exp (- ai) * (exp (- bo) * exp (- bi)) / (1 - exp (- bo) * exp (- bi)))
    with ((1 - exp (- bo) * exp (- bi) + exp (- ao) * exp (- ai) * (exp (- bo) * exp (- bi)))
          / (1 - exp (- bo) * exp (- bi))) by (field; lra).
  rewrite ln_div by lra. ring.
Qed.

Ltac eexp ao bo ai bi :=
  intros He; destruct (pairok_exp ao bo ai bi He) as (? & ? & ? & ? & ? & ? & ?).
Ltac egrad ao bo ai bi := eexp ao bo ai bi; unfold gLe, he_a, he_b;
  unfold Rminus in *; repeat rewrite exp_plus in *;
  auto_derive; [repeat split; try lra|].

Section PairDerivExp.
Variables ao bo ai bi : R.
Let t0 := exp (- bo) * exp (- bi).
Let t1 := exp (- ao) * exp (- ai).
Let D := 1 - t0 + t0 * t1.

Lemma gLe_ao : 0 < bo + bi -> is_derive (fun u : R => gLe u bo ai bi) ao (he_a ao bo ai bi).
Proof.
  intros He. destruct (pairok_exp ao bo ai bi He) as (? & ? & ? & ? & ? & ? & ?).
  assert (E1 : exp (- bo - bi) = exp (- bo) * exp (- bi)) by (unfold Rminus; apply exp_plus).
  assert (E2 : exp (- ao - ai) = exp (- ao) * exp (- ai)) by (unfold Rminus; apply exp_plus).
  assert (P : 0 < 1 + exp (- ao) * exp (- ai) * (exp (- bo) * exp (- bi)) / (1 - exp (- bo) * exp (- bi))).
  { assert (0 < exp (- ao) * exp (- ai) * (exp (- bo) * exp (- bi)) / (1 - exp (- bo) * exp (- bi))); [|lra].
    apply Rdiv_lt_0_compat; lra. }
  unfold gLe. auto_derive.
  - rewrite ?E1, ?E2. unfold Rminus in *. rewrite ?exp_plus in *. repeat split; try lra; try exact P.
  - unfold he_a. unfold Rminus in *. rewrite ?exp_plus in *. field. repeat split; lra.
Qed.

Lemma gLe_ai : 0 < bo + bi -> is_derive (fun u : R => gLe ao bo u bi) ai (he_a ao bo ai bi).
Proof.
  intros He. destruct (pairok_exp ao bo ai bi He) as (? & ? & ? & ? & ? & ? & ?).
  assert (E1 : exp (- bo - bi) = exp (- bo) * exp (- bi)) by (unfold Rminus; apply exp_plus).
  assert (E2 : exp (- ao - ai) = exp (- ao) * exp (- ai)) by (unfold Rminus; apply exp_plus).
  assert (P : 0 < 1 + exp (- ao) * exp (- ai) * (exp (- bo) * exp (- bi)) / (1 - exp (- bo) * exp (- bi))).
  { assert (0 < exp (- ao) * exp (- ai) * (exp (- bo) * exp (- bi)) / (1 - exp (- bo) * exp (- bi))); [|lra].
    apply Rdiv_lt_0_compat; lra. }
  unfold gLe. auto_derive.
  - rewrite ?E1, ?E2. unfold Rminus in *. rewrite ?exp_plus in *. repeat split; try lra; try exact P.
  - unfold he_a. unfold Rminus in *. rewrite ?exp_plus in *. field. repeat split; lra.
Qed.

Lemma gLe_bo : 0 < bo + bi -> is_derive (fun u : R => gLe ao u ai bi) bo (he_b ao bo ai bi).
Proof.
  intros He. destruct (pairok_exp ao bo ai bi He) as (? & ? & ? & ? & ? & ? & ?).
  assert (E1 : exp (- bo - bi) = exp (- bo) * exp (- bi)) by (unfold Rminus; apply exp_plus).
  assert (E2 : exp (- ao - ai) = exp (- ao) * exp (- ai)) by (unfold Rminus; apply exp_plus).
  assert (P : 0 < 1 + exp (- ao) * exp (- ai) * (exp (- bo) * exp (- bi)) / (1 - exp (- bo) * exp (- bi))).
  { assert (0 < exp (- ao) * exp (- ai) * (exp (- bo) * exp (- bi)) / (1 - exp (- bo) * exp (- bi))); [|lra].
    apply Rdiv_lt_0_compat; lra. }
  unfold gLe. auto_derive.
  - rewrite ?E1, ?E2. unfold Rminus in *. rewrite ?exp_plus in *. repeat split; try lra; try exact P.
  - unfold he_b. unfold Rminus in *. rewrite ?exp_plus in *. field. repeat split; lra.
Qed.

Lemma gLe_bi : 0 < bo + bi -> is_derive (fun u : R => gLe ao bo ai u) bi (he_b ao bo ai bi).
Proof.
  intros He. destruct (pairok_exp ao bo ai bi He) as (? & ? & ? & ? & ? & ? & ?).
  assert (E1 : exp (- bo - bi) = exp (- bo) * exp (- bi)) by (unfold Rminus; apply exp_plus).
  assert (E2 : exp (- ao - ai) = exp (- ao) * exp (- ai)) by (unfold Rminus; apply exp_plus).
  assert (P : 0 < 1 + exp (- ao) * exp (- ai) * (exp (- bo) * exp (- bi)) / (1 - exp (- bo) * exp (- bi))).
  { assert (0 < exp (- ao) * exp (- ai) * (exp (- bo) * exp (- bi)) / (1 - exp (- bo) * exp (- bi))); [|lra].
    apply Rdiv_lt_0_compat; lra. }
  unfold gLe. auto_derive.
  - rewrite ?E1, ?E2. unfold Rminus in *. rewrite ?exp_plus in *. repeat split; try lra; try exact P.
  - unfold he_b. unfold Rminus in *. rewrite ?exp_plus in *. field. repeat split; lra.
Qed.

Lemma he_a_ao : 0 < bo + bi -> is_derive (fun u : R => he_a u bo ai bi) ao (- ((1 - t0) * t1 * t0 / D ^ 2)).
Proof.
  intros He. destruct (pairok_exp ao bo ai bi He) as (? & ? & ? & ? & ? & ? & ?).
  unfold he_a, t0, t1, D, t0, t1. auto_derive; [repeat split; try (apply Rmult_integral_contrapositive; split); lra|].
  field. repeat split; lra.
Qed.

Lemma he_a_ai : 0 < bo + bi -> is_derive (fun u : R => he_a ao bo u bi) ai (- ((1 - t0) * t1 * t0 / D ^ 2)).
Proof.
  intros He. destruct (pairok_exp ao bo ai bi He) as (? & ? & ? & ? & ? & ? & ?).
  unfold he_a, t0, t1, D, t0, t1. auto_derive; [repeat split; try (apply Rmult_integral_contrapositive; split); lra|].
  field. repeat split; lra.
Qed.

Lemma he_a_bo : 0 < bo + bi -> is_derive (fun u : R => he_a ao u ai bi) bo (- (t1 * t0 / D ^ 2)).
Proof.
  intros He. destruct (pairok_exp ao bo ai bi He) as (? & ? & ? & ? & ? & ? & ?).
  unfold he_a, t0, t1, D, t0, t1. auto_derive; [repeat split; try (apply Rmult_integral_contrapositive; split); lra|].
  field. repeat split; lra.
Qed.

Lemma he_a_bi : 0 < bo + bi -> is_derive (fun u : R => he_a ao bo ai u) bi (- (t1 * t0 / D ^ 2)).
Proof.
  intros He. destruct (pairok_exp ao bo ai bi He) as (? & ? & ? & ? & ? & ? & ?).
  unfold he_a, t0, t1, D, t0, t1. auto_derive; [repeat split; try (apply Rmult_integral_contrapositive; split); lra|].
  field. repeat split; lra.
Qed.

Lemma he_b_ao : 0 < bo + bi -> is_derive (fun u : R => he_b u bo ai bi) ao (- (t1 * t0 / D ^ 2)).
Proof.
  intros He. destruct (pairok_exp ao bo ai bi He) as (? & ? & ? & ? & ? & ? & ?).
  unfold he_b, t0, t1, D, t0, t1. auto_derive; [repeat split; try (apply Rmult_integral_contrapositive; split); lra|].
  field. repeat split; lra.
Qed.

Lemma he_b_ai : 0 < bo + bi -> is_derive (fun u : R => he_b ao bo u bi) ai (- (t1 * t0 / D ^ 2)).
Proof.
  intros He. destruct (pairok_exp ao bo ai bi He) as (? & ? & ? & ? & ? & ? & ?).
  unfold he_b, t0, t1, D, t0, t1. auto_derive; [repeat split; try (apply Rmult_integral_contrapositive; split); lra|].
  field. repeat split; lra.
Qed.

Lemma he_b_bo : 0 < bo + bi -> is_derive (fun u : R => he_b ao u ai bi) bo (- (t1 * t0 * (1 + (t1 - 1) * t0 ^ 2) / ((1 - t0) ^ 2 * D ^ 2))).
Proof.
  intros He. destruct (pairok_exp ao bo ai bi He) as (? & ? & ? & ? & ? & ? & ?).
  unfold he_b, t0, t1, D, t0, t1. auto_derive; [repeat split; try (apply Rmult_integral_contrapositive; split); lra|].
  field. repeat split; lra.
Qed.

Lemma he_b_bi : 0 < bo + bi -> is_derive (fun u : R => he_b ao bo ai u) bi (- (t1 * t0 * (1 + (t1 - 1) * t0 ^ 2) / ((1 - t0) ^ 2 * D ^ 2))).
Proof.
  intros He. destruct (pairok_exp ao bo ai bi He) as (? & ? & ? & ? & ? & ? & ?).
  unfold he_b, t0, t1, D, t0, t1. auto_derive; [repeat split; try (apply Rmult_integral_contrapositive; split); lra|].
  field. repeat split; lra.
Qed.

End PairDerivExp.

Section NFexp.
Variables (n : nat) (ko ki so si : nat -> R).

Lemma loglik_decm_exp_nf x :
  loglikelihood_decm_exp n ko ki so si x =
  rsum n (fun i => - (ko i * x i) + - (ki i * x (i + n)%nat)
     + - (so i * x (i + 2 * n)%nat) + - (si i * x (i + 3 * n)%nat))
  + PairSum n gLe x.
Proof.
  unfold loglikelihood_decm_exp, PairSum, Row_out. cbv zeta. rewrite <- rsum_plus.
  rewrite (loop_add n 0 _ (fun i => (- (ko i * x i) + - (ki i * x (i + n)%nat)
     + - (so i * x (i + 2 * n)%nat) + - (si i * x (i + 3 * n)%nat))
    + rsum n (fun j => if Nat.eqb i j then 0 else gLe (x i) (x (i + 2 * n)%nat) (x (j + n)%nat) (x (j + 3 * n)%nat)))).
  - ring.
  - intros i acc Hi.
    match goal with |- loop n ?a _ = _ =>
      rewrite (loop_add n a _ (fun j => if Nat.eqb i j then 0 else gLe (x i) (x (i + 2 * n)%nat) (x (j + n)%nat) (x (j + 3 * n)%nat))) end.
    + destruct (Req_EM_T (ko i) 0) as [E0|_], (Req_EM_T (ki i) 0) as [E1|_],
        (Req_EM_T (so i) 0) as [E2|_], (Req_EM_T (si i) 0) as [E3|_];
        try rewrite E0; try rewrite E1; try rewrite E2; try rewrite E3; ring.
    + intros j a Hj. destruct (Nat.eqb i j); cbn [negb]; [ring|]. unfold gLe. ring.
Qed.

Lemma prime_decm_exp_0 x i : (i < n)%nat ->
  loglikelihood_prime_decm_exp n ko ki so si x i = - ko i + Row_out n he_a i x.
Proof.
  intros Hi. unfold loglikelihood_prime_decm_exp. rewrite by_block0 by exact Hi. cbv zeta.
  rewrite loop_add_skip. unfold Row_out, he_a. ring.
Qed.

Lemma prime_decm_exp_1 x i : (i < n)%nat ->
  loglikelihood_prime_decm_exp n ko ki so si x (i + n) = - ki i + Row_in n he_a i x.
Proof.
  intros Hi. unfold loglikelihood_prime_decm_exp. rewrite by_block1 by exact Hi. cbv zeta.
  rewrite loop_add_skip. unfold Row_in, he_a. ring.
Qed.

Lemma prime_decm_exp_2 x i : (i < n)%nat ->
  loglikelihood_prime_decm_exp n ko ki so si x (i + 2 * n) = - so i + Row_out n he_b i x.
Proof.
  intros Hi. unfold loglikelihood_prime_decm_exp. rewrite by_block2 by exact Hi. cbv zeta.
  rewrite loop_add_skip. unfold Row_out, he_b. ring.
Qed.

Lemma prime_decm_exp_3 x i : (i < n)%nat ->
  loglikelihood_prime_decm_exp n ko ki so si x (i + 3 * n) = - si i + Row_in n he_b i x.
Proof.
  intros Hi. unfold loglikelihood_prime_decm_exp. rewrite by_block3 by exact Hi. cbv zeta.
  rewrite loop_add_skip. unfold Row_in, he_b. ring.
Qed.

End NFexp.

Lemma decm_exp_dom_exp n theta : decm_exp_dom n theta -> decm_dom n (fun r => exp (- theta r)).
Proof.
  intros H. split.
  - intros r _. left. apply exp_pos.
  - intros i j Hi Hj Hij. apply exp_opp_mult_lt1. apply H; assumption.
Qed.

Lemma gradient_decm_exp n ko ki so si x r :
  (r < 4 * n)%nat -> decm_exp_dom n x ->
  partial (loglikelihood_decm_exp n ko ki so si) x r (loglikelihood_prime_decm_exp n ko ki so si x r).
Proof.
  intros Hr HD. revert r Hr.
  assert (HE : forall r d, partial (fun z => rsum n (fun i => - (ko i * z i) + - (ki i * z (i + n)%nat)
     + - (so i * z (i + 2 * n)%nat) + - (si i * z (i + 3 * n)%nat))
     + PairSum n gLe z) x r d -> partial (loglikelihood_decm_exp n ko ki so si) x r d).
  { intros r d. apply partial_ext. intros y. symmetry. apply loglik_decm_exp_nf. }
  assert (HL : forall k v : R, is_derive (fun u : R => - (k * u)) v (- k)).
  { intros k v. auto_derive; [exact I|]. ring. }
  apply coord4; intros h Hh; apply HE.
  - rewrite prime_decm_exp_0 by exact Hh. apply partial_Rplus.
    + apply (lin_0 n (fun i v => - (ko i * v)) (fun i v => - (ki i * v)) (fun i v => - (so i * v)) (fun i v => - (si i * v))); [exact Hh|].
      apply HL.
    + apply (pairsum_out n gLe x h); auto. apply row_out_0; [exact Hh|].
      intros j Hj Hjh. apply gLe_ao. apply HD; auto.
  - rewrite prime_decm_exp_1 by exact Hh. apply partial_Rplus.
    + apply (lin_1 n (fun i v => - (ko i * v)) (fun i v => - (ki i * v)) (fun i v => - (so i * v)) (fun i v => - (si i * v))); [exact Hh|].
      apply HL.
    + apply (pairsum_in n gLe x h); auto. apply row_in_1; [exact Hh|].
      intros j Hj Hjh. apply gLe_ai. apply HD; auto.
  - rewrite prime_decm_exp_2 by exact Hh. apply partial_Rplus.
    + apply (lin_2 n (fun i v => - (ko i * v)) (fun i v => - (ki i * v)) (fun i v => - (so i * v)) (fun i v => - (si i * v))); [exact Hh|].
      apply HL.
    + apply (pairsum_out n gLe x h); auto. apply row_out_2; [exact Hh|].
      intros j Hj Hjh. apply gLe_bo. apply HD; auto.
  - rewrite prime_decm_exp_3 by exact Hh. apply partial_Rplus.
    + apply (lin_3 n (fun i v => - (ko i * v)) (fun i v => - (ki i * v)) (fun i v => - (so i * v)) (fun i v => - (si i * v))); [exact Hh|].
      apply HL.
    + apply (pairsum_in n gLe x h); auto. apply row_in_3; [exact Hh|].
      intros j Hj Hjh. apply gLe_bi. apply HD; auto.
Qed.

Lemma partial_const F x r (a : R) : (forall y, F y = a) -> partial F x r 0.
Proof. intros H. unfold partial. apply (is_derive_fext (fun _ : R => a)); [intros; symmetry; apply H|apply is_derive_R0]. Qed.

Ltac hfielde HD i j :=
  let F := fresh "F" in
  match type of HD with decm_exp_dom ?n ?x =>
  pose proof (pairok_exp (x i) (x (i + 2 * n)%nat) (x (j + n)%nat) (x (j + 3 * n)%nat) (HD i j ltac:(lia) ltac:(lia) ltac:(lia))) as F;
  destruct F as (? & ? & ? & ? & ? & ? & ?);
  field; repeat split; lra end.

Lemma hess_decm_exp_00 n ko ki so si x h t :
  (h < n)%nat -> (t < n)%nat -> decm_exp_dom n x ->
  partial (fun z => loglikelihood_prime_decm_exp n ko ki so si z h) x t
    (loglikelihood_hessian_decm_exp n x h t).
Proof.
  intros Hh Ht HD.
  apply (partial_ext (fun z => - ko h + Row_out n he_a h z));
    [intros z; symmetry; apply prime_decm_exp_0; exact Hh|].
  unfold loglikelihood_hessian_decm_exp.
  rewrite (blk0 n h Hh), (pos0 n h Hh), (blk0 n t Ht), (pos0 n t Ht). cbv beta iota zeta.
  destruct (Nat.eqb_spec h t) as [<-|Hne].
  - eapply partial_eq; [apply partial_Rplus; [apply (partial_const _ _ _ (- ko h)); reflexivity|apply (row_out_0 n he_a x h Hh);
      intros j Hj Hjh; apply he_a_ao; apply HD; auto]|].
    cbv beta. match goal with |- ?K + rsum n (fun j => if _ then 0 else @?G j) = loop n ?a ?F =>
      rewrite (loop_add n a F (fun j => if Nat.eqb h j then 0 else G j)) end.
    + ring.
    + intros j acc Hj. rewrite Nat.eqb_sym. destruct (Nat.eqb_spec h j) as [E|E]; cbn [negb]; [ring|].
      hfielde HD h j.
  - eapply partial_eq; [apply partial_Rplus; [apply (partial_const _ _ _ (- ko h)); reflexivity|
      apply (row_out_none n he_a x h Hh); try lia; intros; lia]|ring].
Qed.

Lemma hess_decm_exp_01 n ko ki so si x h t :
  (h < n)%nat -> (t < n)%nat -> decm_exp_dom n x ->
  partial (fun z => loglikelihood_prime_decm_exp n ko ki so si z h) x (t + n)
    (loglikelihood_hessian_decm_exp n x h (t + n)).
Proof.
  intros Hh Ht HD.
  apply (partial_ext (fun z => - ko h + Row_out n he_a h z));
    [intros z; symmetry; apply prime_decm_exp_0; exact Hh|].
  unfold loglikelihood_hessian_decm_exp.
  rewrite (blk0 n h Hh), (pos0 n h Hh), (blk1 n t Ht), (pos1 n t Ht). cbv beta iota zeta.
  destruct (Nat.eqb_spec h t) as [<-|Hne].
  - eapply partial_eq; [apply partial_Rplus; [apply (partial_const _ _ _ (- ko h)); reflexivity|
      apply (row_out_none n he_a x h Hh); try lia; intros; lia]|ring].
  - eapply partial_eq; [apply partial_Rplus; [apply (partial_const _ _ _ (- ko h)); reflexivity|apply (row_out_1 n he_a x h Hh t);
      [exact Ht|auto|apply he_a_ai; apply HD; auto]]|].
    hfielde HD h t.
Qed.

Lemma hess_decm_exp_02 n ko ki so si x h t :
  (h < n)%nat -> (t < n)%nat -> decm_exp_dom n x ->
  partial (fun z => loglikelihood_prime_decm_exp n ko ki so si z h) x (t + 2 * n)
    (loglikelihood_hessian_decm_exp n x h (t + 2 * n)).
Proof.
  intros Hh Ht HD.
  apply (partial_ext (fun z => - ko h + Row_out n he_a h z));
    [intros z; symmetry; apply prime_decm_exp_0; exact Hh|].
  unfold loglikelihood_hessian_decm_exp.
  rewrite (blk0 n h Hh), (pos0 n h Hh), (blk2 n t Ht), (pos2 n t Ht). cbv beta iota zeta.
  destruct (Nat.eqb_spec h t) as [<-|Hne].
  - eapply partial_eq; [apply partial_Rplus; [apply (partial_const _ _ _ (- ko h)); reflexivity|apply (row_out_2 n he_a x h Hh);
      intros j Hj Hjh; apply he_a_bo; apply HD; auto]|].
    cbv beta. match goal with |- ?K + rsum n (fun j => if _ then 0 else @?G j) = loop n ?a ?F =>
      rewrite (loop_add n a F (fun j => if Nat.eqb h j then 0 else G j)) end.
    + ring.
    + intros j acc Hj. rewrite Nat.eqb_sym. destruct (Nat.eqb_spec h j) as [E|E]; cbn [negb]; [ring|].
      hfielde HD h j.
  - eapply partial_eq; [apply partial_Rplus; [apply (partial_const _ _ _ (- ko h)); reflexivity|
      apply (row_out_none n he_a x h Hh); try lia; intros; lia]|ring].
Qed.

Lemma hess_decm_exp_03 n ko ki so si x h t :
  (h < n)%nat -> (t < n)%nat -> decm_exp_dom n x ->
  partial (fun z => loglikelihood_prime_decm_exp n ko ki so si z h) x (t + 3 * n)
    (loglikelihood_hessian_decm_exp n x h (t + 3 * n)).
Proof.
  intros Hh Ht HD.
  apply (partial_ext (fun z => - ko h + Row_out n he_a h z));
    [intros z; symmetry; apply prime_decm_exp_0; exact Hh|].
  unfold loglikelihood_hessian_decm_exp.
  rewrite (blk0 n h Hh), (pos0 n h Hh), (blk3 n t Ht), (pos3 n t Ht). cbv beta iota zeta.
  destruct (Nat.eqb_spec h t) as [<-|Hne].
  - eapply partial_eq; [apply partial_Rplus; [apply (partial_const _ _ _ (- ko h)); reflexivity|
      apply (row_out_none n he_a x h Hh); try lia; intros; lia]|ring].
  - eapply partial_eq; [apply partial_Rplus; [apply (partial_const _ _ _ (- ko h)); reflexivity|apply (row_out_3 n he_a x h Hh t);
      [exact Ht|auto|apply he_a_bi; apply HD; auto]]|].
    hfielde HD h t.
Qed.

Lemma hess_decm_exp_10 n ko ki so si x h t :
  (h < n)%nat -> (t < n)%nat -> decm_exp_dom n x ->
  partial (fun z => loglikelihood_prime_decm_exp n ko ki so si z (h + n)) x t
    (loglikelihood_hessian_decm_exp n x (h + n) t).
Proof.
  intros Hh Ht HD.
  apply (partial_ext (fun z => - ki h + Row_in n he_a h z));
    [intros z; symmetry; apply prime_decm_exp_1; exact Hh|].
  unfold loglikelihood_hessian_decm_exp.
  rewrite (blk1 n h Hh), (pos1 n h Hh), (blk0 n t Ht), (pos0 n t Ht). cbv beta iota zeta.
  destruct (Nat.eqb_spec h t) as [<-|Hne].
  - eapply partial_eq; [apply partial_Rplus; [apply (partial_const _ _ _ (- ki h)); reflexivity|
      apply (row_in_none n he_a x h Hh); try lia; intros; lia]|ring].
  - eapply partial_eq; [apply partial_Rplus; [apply (partial_const _ _ _ (- ki h)); reflexivity|apply (row_in_0 n he_a x h Hh t);
      [exact Ht|auto|apply he_a_ao; apply HD; auto]]|].
    hfielde HD t h.
Qed.

Lemma hess_decm_exp_11 n ko ki so si x h t :
  (h < n)%nat -> (t < n)%nat -> decm_exp_dom n x ->
  partial (fun z => loglikelihood_prime_decm_exp n ko ki so si z (h + n)) x (t + n)
    (loglikelihood_hessian_decm_exp n x (h + n) (t + n)).
Proof.
  intros Hh Ht HD.
  apply (partial_ext (fun z => - ki h + Row_in n he_a h z));
    [intros z; symmetry; apply prime_decm_exp_1; exact Hh|].
  unfold loglikelihood_hessian_decm_exp.
  rewrite (blk1 n h Hh), (pos1 n h Hh), (blk1 n t Ht), (pos1 n t Ht). cbv beta iota zeta.
  destruct (Nat.eqb_spec h t) as [<-|Hne].
  - eapply partial_eq; [apply partial_Rplus; [apply (partial_const _ _ _ (- ki h)); reflexivity|apply (row_in_1 n he_a x h Hh);
      intros j Hj Hjh; apply he_a_ai; apply HD; auto]|].
    cbv beta. match goal with |- ?K + rsum n (fun j => if _ then 0 else @?G j) = loop n ?a ?F =>
      rewrite (loop_add n a F (fun j => if Nat.eqb h j then 0 else G j)) end.
    + ring.
    + intros j acc Hj. rewrite Nat.eqb_sym. destruct (Nat.eqb_spec h j) as [E|E]; cbn [negb]; [ring|].
      hfielde HD j h.
  - eapply partial_eq; [apply partial_Rplus; [apply (partial_const _ _ _ (- ki h)); reflexivity|
      apply (row_in_none n he_a x h Hh); try lia; intros; lia]|ring].
Qed.

Lemma hess_decm_exp_12 n ko ki so si x h t :
  (h < n)%nat -> (t < n)%nat -> decm_exp_dom n x ->
  partial (fun z => loglikelihood_prime_decm_exp n ko ki so si z (h + n)) x (t + 2 * n)
    (loglikelihood_hessian_decm_exp n x (h + n) (t + 2 * n)).
Proof.
  intros Hh Ht HD.
  apply (partial_ext (fun z => - ki h + Row_in n he_a h z));
    [intros z; symmetry; apply prime_decm_exp_1; exact Hh|].
  unfold loglikelihood_hessian_decm_exp.
  rewrite (blk1 n h Hh), (pos1 n h Hh), (blk2 n t Ht), (pos2 n t Ht). cbv beta iota zeta.
  destruct (Nat.eqb_spec h t) as [<-|Hne].
  - eapply partial_eq; [apply partial_Rplus; [apply (partial_const _ _ _ (- ki h)); reflexivity|
      apply (row_in_none n he_a x h Hh); try lia; intros; lia]|ring].
  - eapply partial_eq; [apply partial_Rplus; [apply (partial_const _ _ _ (- ki h)); reflexivity|apply (row_in_2 n he_a x h Hh t);
      [exact Ht|auto|apply he_a_bo; apply HD; auto]]|].
    hfielde HD t h.
Qed.

Lemma hess_decm_exp_13 n ko ki so si x h t :
  (h < n)%nat -> (t < n)%nat -> decm_exp_dom n x ->
  partial (fun z => loglikelihood_prime_decm_exp n ko ki so si z (h + n)) x (t + 3 * n)
    (loglikelihood_hessian_decm_exp n x (h + n) (t + 3 * n)).
Proof.
  intros Hh Ht HD.
  apply (partial_ext (fun z => - ki h + Row_in n he_a h z));
    [intros z; symmetry; apply prime_decm_exp_1; exact Hh|].
  unfold loglikelihood_hessian_decm_exp.
  rewrite (blk1 n h Hh), (pos1 n h Hh), (blk3 n t Ht), (pos3 n t Ht). cbv beta iota zeta.
  destruct (Nat.eqb_spec h t) as [<-|Hne].
  - eapply partial_eq; [apply partial_Rplus; [apply (partial_const _ _ _ (- ki h)); reflexivity|apply (row_in_3 n he_a x h Hh);
      intros j Hj Hjh; apply he_a_bi; apply HD; auto]|].
    cbv beta. match goal with |- ?K + rsum n (fun j => if _ then 0 else @?G j) = loop n ?a ?F =>
      rewrite (loop_add n a F (fun j => if Nat.eqb h j then 0 else G j)) end.
    + ring.
    + intros j acc Hj. rewrite Nat.eqb_sym. destruct (Nat.eqb_spec h j) as [E|E]; cbn [negb]; [ring|].
      hfielde HD j h.
  - eapply partial_eq; [apply partial_Rplus; [apply (partial_const _ _ _ (- ki h)); reflexivity|
      apply (row_in_none n he_a x h Hh); try lia; intros; lia]|ring].
Qed.

Lemma hess_decm_exp_20 n ko ki so si x h t :
  (h < n)%nat -> (t < n)%nat -> decm_exp_dom n x ->
  partial (fun z => loglikelihood_prime_decm_exp n ko ki so si z (h + 2 * n)) x t
    (loglikelihood_hessian_decm_exp n x (h + 2 * n) t).
Proof.
  intros Hh Ht HD.
  apply (partial_ext (fun z => - so h + Row_out n he_b h z));
    [intros z; symmetry; apply prime_decm_exp_2; exact Hh|].
  unfold loglikelihood_hessian_decm_exp.
  rewrite (blk2 n h Hh), (pos2 n h Hh), (blk0 n t Ht), (pos0 n t Ht). cbv beta iota zeta.
  destruct (Nat.eqb_spec h t) as [<-|Hne].
  - eapply partial_eq; [apply partial_Rplus; [apply (partial_const _ _ _ (- so h)); reflexivity|apply (row_out_0 n he_b x h Hh);
      intros j Hj Hjh; apply he_b_ao; apply HD; auto]|].
    cbv beta. match goal with |- ?K + rsum n (fun j => if _ then 0 else @?G j) = loop n ?a ?F =>
      rewrite (loop_add n a F (fun j => if Nat.eqb h j then 0 else G j)) end.
    + ring.
    + intros j acc Hj. rewrite Nat.eqb_sym. destruct (Nat.eqb_spec h j) as [E|E]; cbn [negb]; [ring|].
      hfielde HD h j.
  - eapply partial_eq; [apply partial_Rplus; [apply (partial_const _ _ _ (- so h)); reflexivity|
      apply (row_out_none n he_b x h Hh); try lia; intros; lia]|ring].
Qed.

Lemma hess_decm_exp_21 n ko ki so si x h t :
  (h < n)%nat -> (t < n)%nat -> decm_exp_dom n x ->
  partial (fun z => loglikelihood_prime_decm_exp n ko ki so si z (h + 2 * n)) x (t + n)
    (loglikelihood_hessian_decm_exp n x (h + 2 * n) (t + n)).
Proof.
  intros Hh Ht HD.
  apply (partial_ext (fun z => - so h + Row_out n he_b h z));
    [intros z; symmetry; apply prime_decm_exp_2; exact Hh|].
  unfold loglikelihood_hessian_decm_exp.
  rewrite (blk2 n h Hh), (pos2 n h Hh), (blk1 n t Ht), (pos1 n t Ht). cbv beta iota zeta.
  destruct (Nat.eqb_spec h t) as [<-|Hne].
  - eapply partial_eq; [apply partial_Rplus; [apply (partial_const _ _ _ (- so h)); reflexivity|
      apply (row_out_none n he_b x h Hh); try lia; intros; lia]|ring].
  - eapply partial_eq; [apply partial_Rplus; [apply (partial_const _ _ _ (- so h)); reflexivity|apply (row_out_1 n he_b x h Hh t);
      [exact Ht|auto|apply he_b_ai; apply HD; auto]]|].
    hfielde HD h t.
Qed.

Lemma hess_decm_exp_22 n ko ki so si x h t :
  (h < n)%nat -> (t < n)%nat -> decm_exp_dom n x ->
  partial (fun z => loglikelihood_prime_decm_exp n ko ki so si z (h + 2 * n)) x (t + 2 * n)
    (loglikelihood_hessian_decm_exp n x (h + 2 * n) (t + 2 * n)).
Proof.
  intros Hh Ht HD.
  apply (partial_ext (fun z => - so h + Row_out n he_b h z));
    [intros z; symmetry; apply prime_decm_exp_2; exact Hh|].
  unfold loglikelihood_hessian_decm_exp.
  rewrite (blk2 n h Hh), (pos2 n h Hh), (blk2 n t Ht), (pos2 n t Ht). cbv beta iota zeta.
  destruct (Nat.eqb_spec h t) as [<-|Hne].
  - eapply partial_eq; [apply partial_Rplus; [apply (partial_const _ _ _ (- so h)); reflexivity|apply (row_out_2 n he_b x h Hh);
      intros j Hj Hjh; apply he_b_bo; apply HD; auto]|].
    cbv beta. match goal with |- ?K + rsum n (fun j => if _ then 0 else @?G j) = loop n ?a ?F =>
      rewrite (loop_add n a F (fun j => if Nat.eqb h j then 0 else G j)) end.
    + ring.
    + intros j acc Hj. rewrite Nat.eqb_sym. destruct (Nat.eqb_spec h j) as [E|E]; cbn [negb]; [ring|].
      hfielde HD h j.
  - eapply partial_eq; [apply partial_Rplus; [apply (partial_const _ _ _ (- so h)); reflexivity|
      apply (row_out_none n he_b x h Hh); try lia; intros; lia]|ring].
Qed.

Lemma hess_decm_exp_23 n ko ki so si x h t :
  (h < n)%nat -> (t < n)%nat -> decm_exp_dom n x ->
  partial (fun z => loglikelihood_prime_decm_exp n ko ki so si z (h + 2 * n)) x (t + 3 * n)
    (loglikelihood_hessian_decm_exp n x (h + 2 * n) (t + 3 * n)).
Proof.
  intros Hh Ht HD.
  apply (partial_ext (fun z => - so h + Row_out n he_b h z));
    [intros z; symmetry; apply prime_decm_exp_2; exact Hh|].
  unfold loglikelihood_hessian_decm_exp.
  rewrite (blk2 n h Hh), (pos2 n h Hh), (blk3 n t Ht), (pos3 n t Ht). cbv beta iota zeta.
  destruct (Nat.eqb_spec h t) as [<-|Hne].
  - eapply partial_eq; [apply partial_Rplus; [apply (partial_const _ _ _ (- so h)); reflexivity|
      apply (row_out_none n he_b x h Hh); try lia; intros; lia]|ring].
  - eapply partial_eq; [apply partial_Rplus; [apply (partial_const _ _ _ (- so h)); reflexivity|apply (row_out_3 n he_b x h Hh t);
      [exact Ht|auto|apply he_b_bi; apply HD; auto]]|].
    hfielde HD h t.
Qed.

Lemma hess_decm_exp_30 n ko ki so si x h t :
  (h < n)%nat -> (t < n)%nat -> decm_exp_dom n x ->
  partial (fun z => loglikelihood_prime_decm_exp n ko ki so si z (h + 3 * n)) x t
    (loglikelihood_hessian_decm_exp n x (h + 3 * n) t).
Proof.
  intros Hh Ht HD.
  apply (partial_ext (fun z => - si h + Row_in n he_b h z));
    [intros z; symmetry; apply prime_decm_exp_3; exact Hh|].
  unfold loglikelihood_hessian_decm_exp.
  rewrite (blk3 n h Hh), (pos3 n h Hh), (blk0 n t Ht), (pos0 n t Ht). cbv beta iota zeta.
  destruct (Nat.eqb_spec h t) as [<-|Hne].
  - eapply partial_eq; [apply partial_Rplus; [apply (partial_const _ _ _ (- si h)); reflexivity|
      apply (row_in_none n he_b x h Hh); try lia; intros; lia]|ring].
  - eapply partial_eq; [apply partial_Rplus; [apply (partial_const _ _ _ (- si h)); reflexivity|apply (row_in_0 n he_b x h Hh t);
      [exact Ht|auto|apply he_b_ao; apply HD; auto]]|].
    hfielde HD t h.
Qed.

Lemma hess_decm_exp_31 n ko ki so si x h t :
  (h < n)%nat -> (t < n)%nat -> decm_exp_dom n x ->
  partial (fun z => loglikelihood_prime_decm_exp n ko ki so si z (h + 3 * n)) x (t + n)
    (loglikelihood_hessian_decm_exp n x (h + 3 * n) (t + n)).
Proof.
  intros Hh Ht HD.
  apply (partial_ext (fun z => - si h + Row_in n he_b h z));
    [intros z; symmetry; apply prime_decm_exp_3; exact Hh|].
  unfold loglikelihood_hessian_decm_exp.
  rewrite (blk3 n h Hh), (pos3 n h Hh), (blk1 n t Ht), (pos1 n t Ht). cbv beta iota zeta.
  destruct (Nat.eqb_spec h t) as [<-|Hne].
  - eapply partial_eq; [apply partial_Rplus; [apply (partial_const _ _ _ (- si h)); reflexivity|apply (row_in_1 n he_b x h Hh);
      intros j Hj Hjh; apply he_b_ai; apply HD; auto]|].
    cbv beta. match goal with |- ?K + rsum n (fun j => if _ then 0 else @?G j) = loop n ?a ?F =>
      rewrite (loop_add n a F (fun j => if Nat.eqb h j then 0 else G j)) end.
    + ring.
    + intros j acc Hj. rewrite Nat.eqb_sym. destruct (Nat.eqb_spec h j) as [E|E]; cbn [negb]; [ring|].
      hfielde HD j h.
  - eapply partial_eq; [apply partial_Rplus; [apply (partial_const _ _ _ (- si h)); reflexivity|
      apply (row_in_none n he_b x h Hh); try lia; intros; lia]|ring].
Qed.

Lemma hess_decm_exp_32 n ko ki so si x h t :
  (h < n)%nat -> (t < n)%nat -> decm_exp_dom n x ->
  partial (fun z => loglikelihood_prime_decm_exp n ko ki so si z (h + 3 * n)) x (t + 2 * n)
    (loglikelihood_hessian_decm_exp n x (h + 3 * n) (t + 2 * n)).
Proof.
  intros Hh Ht HD.
  apply (partial_ext (fun z => - si h + Row_in n he_b h z));
    [intros z; symmetry; apply prime_decm_exp_3; exact Hh|].
  unfold loglikelihood_hessian_decm_exp.
  rewrite (blk3 n h Hh), (pos3 n h Hh), (blk2 n t Ht), (pos2 n t Ht). cbv beta iota zeta.
  destruct (Nat.eqb_spec h t) as [<-|Hne].
  - eapply partial_eq; [apply partial_Rplus; [apply (partial_const _ _ _ (- si h)); reflexivity|
      apply (row_in_none n he_b x h Hh); try lia; intros; lia]|ring].
  - eapply partial_eq; [apply partial_Rplus; [apply (partial_const _ _ _ (- si h)); reflexivity|apply (row_in_2 n he_b x h Hh t);
      [exact Ht|auto|apply he_b_bo; apply HD; auto]]|].
    hfielde HD t h.
Qed.

Lemma hess_decm_exp_33 n ko ki so si x h t :
  (h < n)%nat -> (t < n)%nat -> decm_exp_dom n x ->
  partial (fun z => loglikelihood_prime_decm_exp n ko ki so si z (h + 3 * n)) x (t + 3 * n)
    (loglikelihood_hessian_decm_exp n x (h + 3 * n) (t + 3 * n)).
Proof.
  intros Hh Ht HD.
  apply (partial_ext (fun z => - si h + Row_in n he_b h z));
    [intros z; symmetry; apply prime_decm_exp_3; exact Hh|].
  unfold loglikelihood_hessian_decm_exp.
  rewrite (blk3 n h Hh), (pos3 n h Hh), (blk3 n t Ht), (pos3 n t Ht). cbv beta iota zeta.
  destruct (Nat.eqb_spec h t) as [<-|Hne].
  - eapply partial_eq; [apply partial_Rplus; [apply (partial_const _ _ _ (- si h)); reflexivity|apply (row_in_3 n he_b x h Hh);
      intros j Hj Hjh; apply he_b_bi; apply HD; auto]|].
    cbv beta. match goal with |- ?K + rsum n (fun j => if _ then 0 else @?G j) = loop n ?a ?F =>
      rewrite (loop_add n a F (fun j => if Nat.eqb h j then 0 else G j)) end.
    + ring.
    + intros j acc Hj. rewrite Nat.eqb_sym. destruct (Nat.eqb_spec h j) as [E|E]; cbn [negb]; [ring|].
      hfielde HD j h.
  - eapply partial_eq; [apply partial_Rplus; [apply (partial_const _ _ _ (- si h)); reflexivity|
      apply (row_in_none n he_b x h Hh); try lia; intros; lia]|ring].
Qed.

Lemma hessian_decm_exp_correct n ko ki so si x r u :
  (r < 4 * n)%nat -> (u < 4 * n)%nat -> decm_exp_dom n x ->
  partial (fun z => loglikelihood_prime_decm_exp n ko ki so si z r) x u
    (loglikelihood_hessian_decm_exp n x r u).
Proof.
  intros Hr Hu HD. revert r Hr u Hu.
  apply (coord4 n (fun r => forall u, (u < 4 * n)%nat -> partial (fun z => loglikelihood_prime_decm_exp n ko ki so si z r) x u
    (loglikelihood_hessian_decm_exp n x r u))); intros h Hh; apply coord4; intros t Ht.
  - apply hess_decm_exp_00; assumption.
  - apply hess_decm_exp_01; assumption.
  - apply hess_decm_exp_02; assumption.
  - apply hess_decm_exp_03; assumption.
  - apply hess_decm_exp_10; assumption.
  - apply hess_decm_exp_11; assumption.
  - apply hess_decm_exp_12; assumption.
  - apply hess_decm_exp_13; assumption.
  - apply hess_decm_exp_20; assumption.
  - apply hess_decm_exp_21; assumption.
  - apply hess_decm_exp_22; assumption.
  - apply hess_decm_exp_23; assumption.
  - apply hess_decm_exp_30; assumption.
  - apply hess_decm_exp_31; assumption.
  - apply hess_decm_exp_32; assumption.
  - apply hess_decm_exp_33; assumption.
Qed.

Lemma hessian_diag_decm_exp_eq n x r :
  (r < 4 * n)%nat -> decm_exp_dom n x ->
  loglikelihood_hessian_diag_decm_exp n x r = loglikelihood_hessian_decm_exp n x r r.
Proof.
  intros Hr HD. revert r Hr.
  apply coord4; intros h Hh;
  unfold loglikelihood_hessian_diag_decm_exp, loglikelihood_hessian_decm_exp;
  [rewrite by_block0, blk0, pos0 by exact Hh|rewrite by_block1, blk1, pos1 by exact Hh
  |rewrite by_block2, blk2, pos2 by exact Hh|rewrite by_block3, blk3, pos3 by exact Hh];
  rewrite Nat.eqb_refl; cbv beta iota zeta; rewrite !loop_sub_skip'; f_equal; apply rsum_ext;
  intros j Hj; (destruct (Nat.eqb_spec h j) as [E|E]; [reflexivity|]).
  - hfielde HD h j.
  - hfielde HD j h.
  - hfielde HD h j.
  - hfielde HD j h.
Qed.

Lemma hessian_diag_decm_exp_correct n ko ki so si x r :
  (r < 4 * n)%nat -> decm_exp_dom n x ->
  partial (fun z => loglikelihood_prime_decm_exp n ko ki so si z r) x r
    (loglikelihood_hessian_diag_decm_exp n x r).
Proof.
  intros Hr HD. rewrite hessian_diag_decm_exp_eq by assumption.
  apply hessian_decm_exp_correct; assumption.
Qed.
