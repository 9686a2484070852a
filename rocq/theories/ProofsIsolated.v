(** Nodes with zero constraints and zero parameters do not change the others. *)
From Coq Require Import Reals List Arith Lia Lra.
From Verif Require Import Base SpecEnsemble SpecGraph SpecDirected SpecWeighted SpecCReMa SpecReduce ModelCM ModelDCM ModelECM ModelDECM ModelCReMa
  ProofsGraph ProofsEnsemble ProofsList ProofsCM ProofsDCM ProofsMainDCM ProofsECM ProofsDECM ProofsMainDECM.
From Verif Require ProofsCReMa.
Import ListNotations.
Local Open Scope R_scope.

Lemma loop_tail {A : Type} n m (a : A) body :
  (forall j a, (n <= j < n + m)%nat -> body j a = a) -> loop (n + m) a body = loop n a body.
Proof.
  induction m as [|m IH]; intros H; [rewrite Nat.add_0_r; reflexivity|].
  rewrite Nat.add_succ_r, loop_S, H by lia. apply IH. intros j b Hj. apply H. lia.
Qed.
Lemma loop_tail_ext {A : Type} n m (a : A) b1 b2 :
  (forall j a, (j < n)%nat -> b1 j a = b2 j a) ->
  (forall j a, (n <= j < n + m)%nat -> b1 j a = a) -> loop (n + m) a b1 = loop n a b2.
Proof. intros H1 H2. rewrite loop_tail by exact H2. apply loop_ext. exact H1. Qed.
Lemma loop_id {A : Type} n (a : A) body : (forall j a, (j < n)%nat -> body j a = a) -> loop n a body = a.
Proof. induction n as [|n IH]; intros H; [reflexivity|]. rewrite loop_S, H by lia. apply IH. intros. apply H. lia. Qed.

Lemma rsum_tail_ext n m f g :
  (forall j, (j < n)%nat -> f j = g j) -> (forall j, (n <= j < n + m)%nat -> f j = 0) -> rsum (n + m) f = rsum n g.
Proof.
  intros H1 H2. induction m as [|m IH]; [rewrite Nat.add_0_r; apply rsum_ext; exact H1|].
  rewrite Nat.add_succ_r. cbn [rsum]. rewrite H2, IH by (intros; apply H2; lia) || lia. ring.
Qed.

Section Pad.
Variables (n m : nat) (x z : nat -> R).

Lemma pad_lo b q i : padded b n m x z -> (q < b)%nat -> (i < n)%nat -> z (i + q * (n + m))%nat = x (i + q * n)%nat.
Proof. intros P Hq Hi. rewrite P by lia. rewrite (proj2 (Nat.ltb_lt i n) Hi). reflexivity. Qed.
Lemma pad_hi b q i : padded b n m x z -> (q < b)%nat -> (n <= i < n + m)%nat -> z (i + q * (n + m))%nat = 0.
Proof. intros P Hq Hi. rewrite P by lia. rewrite (proj2 (Nat.ltb_ge i n)) by lia. reflexivity. Qed.
Lemma pad_lo0 b i : padded b n m x z -> (0 < b)%nat -> (i < n)%nat -> z i = x i.
Proof. intros P Hb Hi. pose proof (pad_lo b 0 i P Hb Hi) as H. rewrite !Nat.mul_0_l, !Nat.add_0_r in H. exact H. Qed.
Lemma pad_hi0 b i : padded b n m x z -> (0 < b)%nat -> (n <= i < n + m)%nat -> z i = 0.
Proof. intros P Hb Hi. pose proof (pad_hi b 0 i P Hb Hi) as H. rewrite Nat.mul_0_l, Nat.add_0_r in H. exact H. Qed.
Lemma pad_lo1 b i : padded b n m x z -> (1 < b)%nat -> (i < n)%nat -> z (i + (n + m))%nat = x (i + n)%nat.
Proof. intros P Hb Hi. pose proof (pad_lo b 1 i P Hb Hi) as H. rewrite !Nat.mul_1_l in H. exact H. Qed.
Lemma pad_hi1 b i : padded b n m x z -> (1 < b)%nat -> (n <= i < n + m)%nat -> z (i + (n + m))%nat = 0.
Proof. intros P Hb Hi. pose proof (pad_hi b 1 i P Hb Hi) as H. rewrite Nat.mul_1_l in H. exact H. Qed.

(** * UBCM *)
Lemma expected_cm_pad : padded 1 n m x z ->
  (forall i, (i < n)%nat -> expected_degree_cm (n + m) z i = expected_degree_cm n x i) /\
  (forall i, (n <= i < n + m)%nat -> expected_degree_cm (n + m) z i = 0).
Proof.
  intros P. split; intros i Hi; unfold expected_degree_cm.
  - apply loop_tail_ext.
    + intros j a Hj. rewrite ?(pad_lo0 1 i), ?(pad_lo0 1 j) by (assumption || lia). reflexivity.
    + intros j a Hj. rewrite (pad_hi0 1 j) by (assumption || lia). cbv zeta.
      destruct (Nat.eqb i j); cbn [negb]; [reflexivity|]. unfold Rdiv. ring.
  - apply loop_id. intros j a Hj. rewrite (pad_hi0 1 i) by (assumption || lia). cbv zeta.
    destruct (Nat.eqb i j); cbn [negb]; [reflexivity|]. unfold Rdiv. ring.
Qed.
Lemma iterative_cm_pad k c : padded 1 n m x z ->
  (forall i, (i < n)%nat -> iterative_cm (n + m) k c z i = iterative_cm n k c x i) /\
  (forall i, (n <= i < n + m)%nat -> k i = 0 -> iterative_cm (n + m) k c z i = 0).
Proof.
  intros P. split; intros i Hi; unfold iterative_cm; cbv zeta.
  - rewrite (loop_tail_ext n m 0 _ (fun j fx => if Nat.eqb i j then fx + (c j - 1) * (x j / (1 + x j * x i))
    else fx + c j * (x j / (1 + x j * x i)))); [reflexivity| |].
    + intros j a Hj. rewrite ?(pad_lo0 1 i), ?(pad_lo0 1 j) by (assumption || lia). reflexivity.
    + intros j a Hj. rewrite (pad_hi0 1 j) by (assumption || lia). destruct (Nat.eqb i j); unfold Rdiv; ring.
  - intros Hk. destruct (Req_EM_T _ 0); [reflexivity|]. rewrite Hk. unfold Rdiv. ring.
Qed.

(** * UECM *)
Lemma expected_ecm_pad : padded 2 n m x z ->
  (forall i, (i < n)%nat -> expected_ecm (n + m) z i = expected_ecm n x i /\
     expected_ecm (n + m) z (i + (n + m)) = expected_ecm n x (i + n)) /\
  (forall i, (n <= i < n + m)%nat -> expected_ecm (n + m) z i = 0 /\ expected_ecm (n + m) z (i + (n + m)) = 0).
Proof.
  intros P. split; intros i Hi; unfold expected_ecm; cbv zeta;
    rewrite (proj2 (Nat.ltb_lt i (n + m))), ltb_plus_n, plus_n_minus by lia; split.
  - rewrite (proj2 (Nat.ltb_lt i n)) by lia. apply loop_tail_ext; intros j a Hj.
    + rewrite ?(pad_lo0 2 i), ?(pad_lo0 2 j), ?(pad_lo1 2 i), ?(pad_lo1 2 j) by (assumption || lia). reflexivity.
    + rewrite (pad_hi0 2 j), (pad_hi1 2 j) by (assumption || lia). destruct (Nat.eqb i j); cbn [negb]; [reflexivity|].
      unfold Rdiv. ring.
  - rewrite ltb_plus_n, plus_n_minus. apply loop_tail_ext; intros j a Hj.
    + rewrite ?(pad_lo0 2 i), ?(pad_lo0 2 j), ?(pad_lo1 2 i), ?(pad_lo1 2 j) by (assumption || lia). reflexivity.
    + rewrite (pad_hi0 2 j), (pad_hi1 2 j) by (assumption || lia). destruct (Nat.eqb i j); cbn [negb]; [reflexivity|].
      unfold Rdiv. ring.
  - apply loop_id; intros j a Hj. rewrite (pad_hi0 2 i), (pad_hi1 2 i) by (assumption || lia).
    destruct (Nat.eqb i j); cbn [negb]; [reflexivity|]. unfold Rdiv. ring.
  - apply loop_id; intros j a Hj. rewrite (pad_hi0 2 i), (pad_hi1 2 i) by (assumption || lia).
    destruct (Nat.eqb i j); cbn [negb]; [reflexivity|]. unfold Rdiv. ring.
Qed.
Lemma iterative_ecm_pad k s : padded 2 n m x z ->
  (forall i, (i < n)%nat -> iterative_ecm (n + m) k s z i = iterative_ecm n k s x i /\
     iterative_ecm (n + m) k s z (i + (n + m)) = iterative_ecm n k s x (i + n)) /\
  (forall i, (n <= i < n + m)%nat -> k i = 0 -> s i = 0 ->
     iterative_ecm (n + m) k s z i = 0 /\ iterative_ecm (n + m) k s z (i + (n + m)) = 0).
Proof.
  intros P. split; intros i Hi; unfold iterative_ecm; cbv zeta;
    rewrite (proj2 (Nat.ltb_lt i (n + m))), ltb_plus_n, plus_n_minus by lia.
  - rewrite (proj2 (Nat.ltb_lt i n)), ltb_plus_n, plus_n_minus by lia. split.
    + match goal with |- (if Req_EM_T ?a _ then _ else _) = (if Req_EM_T ?b _ then _ else _) => replace a with b; [reflexivity|] end.
      symmetry. apply loop_tail_ext; intros j a Hj.
      * rewrite ?(pad_lo0 2 i), ?(pad_lo0 2 j), ?(pad_lo1 2 i), ?(pad_lo1 2 j) by (assumption || lia). reflexivity.
      * rewrite (pad_hi0 2 j), (pad_hi1 2 j) by (assumption || lia). destruct (Nat.eqb i j); cbn [negb]; [reflexivity|].
        unfold Rdiv. ring.
    + match goal with |- (if Req_EM_T ?a _ then _ else _) = (if Req_EM_T ?b _ then _ else _) => replace a with b; [reflexivity|] end.
      symmetry. apply loop_tail_ext; intros j a Hj.
      * rewrite ?(pad_lo0 2 i), ?(pad_lo0 2 j), ?(pad_lo1 2 i), ?(pad_lo1 2 j) by (assumption || lia). reflexivity.
      * rewrite (pad_hi0 2 j), (pad_hi1 2 j) by (assumption || lia). destruct (Nat.eqb i j); cbn [negb]; [reflexivity|].
        unfold Rdiv. ring.
  - intros Hk Hs. rewrite Hk, Hs. split; (destruct (Req_EM_T _ 0); [reflexivity|]; unfold Rdiv; ring).
Qed.

(** * DBCM *)
Lemma expected_dcm_pad : padded 2 n m x z ->
  (forall i, (i < n)%nat -> expected_out_degree_dcm (n + m) z i = expected_out_degree_dcm n x i /\
     expected_in_degree_dcm (n + m) z i = expected_in_degree_dcm n x i) /\
  (forall i, (n <= i < n + m)%nat -> expected_out_degree_dcm (n + m) z i = 0 /\ expected_in_degree_dcm (n + m) z i = 0).
Proof.
  intros P. split; intros i Hi; rewrite expected_out_degree_dcm_nf, expected_in_degree_dcm_nf by lia.
  - rewrite expected_out_degree_dcm_nf, expected_in_degree_dcm_nf by lia.
    split; apply rsum_tail_ext; intros j Hj; unfold p_dbcm.
    + rewrite ?(pad_lo0 2 i), ?(pad_lo0 2 j), ?(pad_lo1 2 i), ?(pad_lo1 2 j) by (assumption || lia). reflexivity.
    + rewrite (pad_hi1 2 j) by (assumption || lia). destruct (Nat.eqb i j); unfold Rdiv; ring.
    + rewrite ?(pad_lo0 2 i), ?(pad_lo0 2 j), ?(pad_lo1 2 i), ?(pad_lo1 2 j) by (assumption || lia). reflexivity.
    + rewrite (pad_hi0 2 j) by (assumption || lia). destruct (Nat.eqb i j); unfold Rdiv; ring.
  - split; apply rsum_zero; intros j Hj; unfold p_dbcm.
    + rewrite (pad_hi0 2 i) by (assumption || lia). destruct (Nat.eqb i j); unfold Rdiv; ring.
    + rewrite (pad_hi1 2 i) by (assumption || lia). destruct (Nat.eqb i j); unfold Rdiv; ring.
Qed.

(** The likelihood and its gradient read only the listed nodes: here the
    parameters of the other nodes are arbitrary. *)
Lemma loglik_dcm_pad ko ki nzo nzi c : index_list n nzo -> index_list n nzi ->
  (forall i, (i < n)%nat -> z i = x i /\ z (i + (n + m))%nat = x (i + n)%nat) ->
  loglikelihood_dcm (n + m) ko ki nzo nzi c z = loglikelihood_dcm n ko ki nzo nzi c x.
Proof.
  intros [_ Ho] [_ Hi] P. rewrite !loglik_dcm_nf. f_equal; [f_equal|].
  - apply lsum_ext. intros i Hin. rewrite (proj1 (P i (Ho i Hin))). reflexivity.
  - apply lsum_ext. intros i Hin. rewrite (proj2 (P i (Hi i Hin))). reflexivity.
  - apply lsum_ext. intros i Hin. apply lsum_ext. intros j Hjn.
    rewrite (proj1 (P i (Ho i Hin))), (proj2 (P j (Hi j Hjn))). reflexivity.
Qed.
Lemma prime_dcm_pad ko ki nzo nzi c i : index_list n nzo -> index_list n nzi ->
  (forall i, (i < n)%nat -> z i = x i /\ z (i + (n + m))%nat = x (i + n)%nat) ->
  ((i < n)%nat ->
     loglikelihood_prime_dcm (n + m) ko ki nzo nzi c z i = loglikelihood_prime_dcm n ko ki nzo nzi c x i /\
     loglikelihood_prime_dcm (n + m) ko ki nzo nzi c z (i + (n + m)) = loglikelihood_prime_dcm n ko ki nzo nzi c x (i + n)) /\
  ((n <= i < n + m)%nat ->
     loglikelihood_prime_dcm (n + m) ko ki nzo nzi c z i = 0 /\
     loglikelihood_prime_dcm (n + m) ko ki nzo nzi c z (i + (n + m)) = 0).
Proof.
  intros [_ Ho] [_ Hi] P. split; intros Hin.
  - split.
    + destruct (memb_spec i nzo) as [M|M].
      * rewrite !prime_dcm_out by (assumption || lia). rewrite (proj1 (P i Hin)). f_equal.
        apply lsum_ext. intros j Hj. rewrite (proj2 (P j (Hi j Hj))). reflexivity.
      * rewrite !prime_dcm_out_none by (assumption || lia). reflexivity.
    + destruct (memb_spec i nzi) as [M|M].
      * rewrite !prime_dcm_in by assumption. rewrite (proj2 (P i Hin)). f_equal.
        apply lsum_ext. intros j Hj. rewrite (proj1 (P j (Ho j Hj))). reflexivity.
      * rewrite !prime_dcm_in_none by assumption. reflexivity.
  - split.
    + apply prime_dcm_out_none; [lia|]. intros M. apply Ho in M. lia.
    + apply prime_dcm_in_none. intros M. apply Hi in M. lia.
Qed.
Lemma iterative_dcm_pad ko ki c : padded 2 n m x z ->
  (forall i, (i < n)%nat -> iterative_dcm (n + m) ko ki c z i = iterative_dcm n ko ki c x i /\
     iterative_dcm (n + m) ko ki c z (i + (n + m)) = iterative_dcm n ko ki c x (i + n)) /\
  (forall i, (n <= i < n + m)%nat -> ko i = 0 -> ki i = 0 ->
     rsum n (fun j => c j * x (j + n)%nat) <> 0 -> rsum n (fun j => c j * x j) <> 0 ->
     iterative_dcm (n + m) ko ki c z i = Fin 0 /\ iterative_dcm (n + m) ko ki c z (i + (n + m)) = Fin 0).
Proof.
  intros P.
  split; intros i Hi; unfold iterative_dcm; rewrite (proj2 (Nat.ltb_lt i (n + m))), ltb_plus_n, plus_n_minus by lia.
  - rewrite (proj2 (Nat.ltb_lt i n)), ltb_plus_n, plus_n_minus by lia. split; f_equal.
    + apply loop_tail_ext; intros j a Hj.
      * rewrite ?(pad_lo0 2 i), ?(pad_lo1 2 j) by (assumption || lia). reflexivity.
      * rewrite (pad_hi1 2 j) by (assumption || lia). destruct (Nat.eqb j i); cbn [negb]; unfold Rdiv; ring.
    + apply loop_tail_ext; intros j a Hj.
      * rewrite ?(pad_lo0 2 j), ?(pad_lo1 2 i) by (assumption || lia). reflexivity.
      * rewrite (pad_hi0 2 j) by (assumption || lia). destruct (Nat.eqb i j); cbn [negb]; unfold Rdiv; ring.
  - intros Ko Ki S1 S2. rewrite Ko, Ki.
    assert (E1 : dcm_f_out (n + m) c z i = rsum n (fun j => c j * x (j + n)%nat)).
    { unfold dcm_f_out. rewrite (loop_tail_ext n m 0 _ (fun j a => a + c j * x (j + n)%nat)).
      - rewrite (loop_add n 0 _ (fun j => c j * x (j + n)%nat)) by reflexivity. ring.
      - intros j a Hj. rewrite (pad_hi0 2 i), (pad_lo1 2 j), (proj2 (Nat.eqb_neq j i)) by (assumption || lia). cbn [negb]. field.
      - intros j a Hj. rewrite (pad_hi1 2 j) by (assumption || lia). destruct (Nat.eqb j i); cbn [negb]; unfold Rdiv; ring. }
    assert (E2 : dcm_f_in (n + m) c z i = rsum n (fun j => c j * x j)).
    { unfold dcm_f_in. rewrite (loop_tail_ext n m 0 _ (fun j a => a + c j * x j)).
      - rewrite (loop_add n 0 _ (fun j => c j * x j)) by reflexivity. ring.
      - intros j a Hj. rewrite (pad_hi1 2 i), (pad_lo0 2 j), (proj2 (Nat.eqb_neq i j)) by (assumption || lia). cbn [negb]. field.
      - intros j a Hj. rewrite (pad_hi0 2 j) by (assumption || lia). destruct (Nat.eqb i j); cbn [negb]; unfold Rdiv; ring. }
    rewrite E1, E2. unfold fdiv. destruct (Req_EM_T (rsum n (fun j => c j * x (j + n)%nat)) 0); [contradiction|].
    destruct (Req_EM_T (rsum n (fun j => c j * x j)) 0); [contradiction|]. split; f_equal; unfold Rdiv; ring.
Qed.

(** * DECM *)
Lemma pad_lo2 b i : padded b n m x z -> (2 < b)%nat -> (i < n)%nat -> z (i + 2 * (n + m))%nat = x (i + 2 * n)%nat.
Proof. intros P Hb Hi. exact (pad_lo b 2 i P Hb Hi). Qed.
Lemma pad_hi2 b i : padded b n m x z -> (2 < b)%nat -> (n <= i < n + m)%nat -> z (i + 2 * (n + m))%nat = 0.
Proof. intros P Hb Hi. exact (pad_hi b 2 i P Hb Hi). Qed.
Lemma pad_lo3 b i : padded b n m x z -> (3 < b)%nat -> (i < n)%nat -> z (i + 3 * (n + m))%nat = x (i + 3 * n)%nat.
Proof. intros P Hb Hi. exact (pad_lo b 3 i P Hb Hi). Qed.
Lemma pad_hi3 b i : padded b n m x z -> (3 < b)%nat -> (n <= i < n + m)%nat -> z (i + 3 * (n + m))%nat = 0.
Proof. intros P Hb Hi. exact (pad_hi b 3 i P Hb Hi). Qed.
Ltac lo4 i j := rewrite ?(pad_lo0 4 i), ?(pad_lo0 4 j), ?(pad_lo1 4 i), ?(pad_lo1 4 j),
  ?(pad_lo2 4 i), ?(pad_lo2 4 j), ?(pad_lo3 4 i), ?(pad_lo3 4 j) by (assumption || lia).
Ltac hi4 j := rewrite ?(pad_hi0 4 j), ?(pad_hi1 4 j), ?(pad_hi2 4 j), ?(pad_hi3 4 j) by (assumption || lia).
Ltac blocks4 i Hi := rewrite ?(by_block0 (n + m) i ltac:(lia)), ?(by_block1 (n + m) i ltac:(lia)), ?(by_block2 (n + m) i ltac:(lia)),
  ?(by_block3 (n + m) i ltac:(lia)).

Lemma expected_decm_pad : padded 4 n m x z ->
  (forall i, (i < n)%nat ->
     expected_decm (n + m) z i = expected_decm n x i /\
     expected_decm (n + m) z (i + (n + m)) = expected_decm n x (i + n) /\
     expected_decm (n + m) z (i + 2 * (n + m)) = expected_decm n x (i + 2 * n) /\
     expected_decm (n + m) z (i + 3 * (n + m)) = expected_decm n x (i + 3 * n)) /\
  (forall i, (n <= i < n + m)%nat ->
     expected_decm (n + m) z i = 0 /\ expected_decm (n + m) z (i + (n + m)) = 0 /\
     expected_decm (n + m) z (i + 2 * (n + m)) = 0 /\ expected_decm (n + m) z (i + 3 * (n + m)) = 0).
Proof.
  intros P. split; intros i Hi; unfold expected_decm; blocks4 i Hi.
  - rewrite (by_block0 n i Hi), (by_block1 n i Hi), (by_block2 n i Hi), (by_block3 n i Hi).
    repeat split; lo4 i i; f_equal; apply loop_tail_ext; intros j a Hj;
      first [lo4 i j; reflexivity | hi4 j; destruct (Nat.eqb i j); cbn [negb]; [reflexivity|]; unfold Rdiv; ring].
  - hi4 i. repeat split; ring.
Qed.

Lemma loglik_decm_pad ko ki so si : padded 4 n m x z ->
  (forall i, (n <= i < n + m)%nat -> ko i = 0 /\ ki i = 0 /\ so i = 0 /\ si i = 0) ->
  loglikelihood_decm (n + m) ko ki so si z = loglikelihood_decm n ko ki so si x.
Proof.
  intros P Z. unfold loglikelihood_decm. cbv zeta. apply loop_tail_ext; intros i a Hi.
  - lo4 i i. apply loop_tail_ext; intros j b Hj.
    + lo4 i j. reflexivity.
    + hi4 j. destruct (Nat.eqb i j); cbn [negb]; [reflexivity|].
      replace (1 - x (i + 2 * n)%nat * 0) with 1 by ring.
      replace (1 + x (i + 2 * n)%nat * 0 * x i * 0) with 1 by ring. rewrite ln_1. ring.
  - destruct (Z i Hi) as (-> & -> & -> & ->). destruct (Req_EM_T 0 0); [|contradiction].
    apply loop_id. intros j b Hj. hi4 i. destruct (Nat.eqb i j); cbn [negb]; [reflexivity|].
    replace (1 - 0 * z (j + 3 * (n + m))%nat) with 1 by ring.
    replace (1 + 0 * z (j + 3 * (n + m))%nat * 0 * z (j + (n + m))%nat) with 1 by ring. rewrite ln_1. ring.
Qed.

Lemma prime_decm_pad ko ki so si : padded 4 n m x z ->
  forall i, (i < n)%nat -> x i <> 0 ->
     loglikelihood_prime_decm (n + m) ko ki so si z i = loglikelihood_prime_decm n ko ki so si x i /\
     loglikelihood_prime_decm (n + m) ko ki so si z (i + (n + m)) = loglikelihood_prime_decm n ko ki so si x (i + n) /\
     loglikelihood_prime_decm (n + m) ko ki so si z (i + 2 * (n + m)) = loglikelihood_prime_decm n ko ki so si x (i + 2 * n) /\
     loglikelihood_prime_decm (n + m) ko ki so si z (i + 3 * (n + m)) = loglikelihood_prime_decm n ko ki so si x (i + 3 * n).
Proof.
  intros P i Hi Hne. unfold loglikelihood_prime_decm. blocks4 i Hi.
  rewrite (by_block0 n i Hi), (by_block1 n i Hi), (by_block2 n i Hi), (by_block3 n i Hi). cbv zeta.
  repeat split; lo4 i i;
    (match goal with |- (if _ then - ?a else _) = (if _ then - ?b else _) => replace a with b; [reflexivity|] end);
    symmetry; apply loop_tail_ext; intros j a Hj;
    first [lo4 i j; reflexivity |
      hi4 j; destruct (Nat.eqb i j); cbn [negb]; [reflexivity|]; try (destruct (Req_EM_T (x i) 0); [contradiction|]); unfold Rdiv; ring].
Qed.

Lemma iterative_decm_pad ko ki so si : padded 4 n m x z ->
  (forall i, (i < n)%nat ->
     iterative_decm (n + m) ko ki so si z i = iterative_decm n ko ki so si x i /\
     iterative_decm (n + m) ko ki so si z (i + (n + m)) = iterative_decm n ko ki so si x (i + n) /\
     iterative_decm (n + m) ko ki so si z (i + 2 * (n + m)) = iterative_decm n ko ki so si x (i + 2 * n) /\
     iterative_decm (n + m) ko ki so si z (i + 3 * (n + m)) = iterative_decm n ko ki so si x (i + 3 * n)) /\
  (forall i, (n <= i < n + m)%nat -> ko i = 0 -> ki i = 0 -> so i = 0 -> si i = 0 ->
     iterative_decm (n + m) ko ki so si z i = Some 0 /\ iterative_decm (n + m) ko ki so si z (i + (n + m)) = Some 0 /\
     iterative_decm (n + m) ko ki so si z (i + 2 * (n + m)) = Some 0 /\ iterative_decm (n + m) ko ki so si z (i + 3 * (n + m)) = Some 0).
Proof.
  intros P. split; intros i Hi; unfold iterative_decm; blocks4 i Hi; cbv zeta.
  - rewrite (by_block0 n i Hi), (by_block1 n i Hi), (by_block2 n i Hi), (by_block3 n i Hi).
    repeat split; lo4 i i;
      (match goal with |- (if _ then _ else sdiv _ ?a) = (if _ then _ else sdiv _ ?b) => replace a with b; [reflexivity|] end);
      symmetry; apply loop_tail_ext; intros j a Hj;
      first [lo4 i j; reflexivity | hi4 j; destruct (Nat.eqb i j); cbn [negb]; [reflexivity|]; unfold Rdiv; ring].
  - intros -> -> -> ->. destruct (Req_EM_T 0 0); [|contradiction]. repeat split.
Qed.
End Pad.

(** * CReMa: a node with no listed pair and zero strength; its parameter is arbitrary *)
Lemma loglik_crema_pad n m s es beta : (forall i, (n <= i < n + m)%nat -> s i = 0) ->
  loglikelihood_crema_undirected (n + m) s es beta = loglikelihood_crema_undirected n s es beta.
Proof.
  intros Z. unfold loglikelihood_crema_undirected. f_equal. apply loop_tail. intros j a Hj. rewrite Z by exact Hj. ring.
Qed.
Lemma expected_crema_pad n m es beta : pairs_below n es -> crema_dom es beta ->
  exists E, expected_strength_crema_undirected es beta = Some E /\ forall i, (n <= i < n + m)%nat -> E i = 0.
Proof.
  intros HB HD. destruct (ProofsCReMa.expected_crema_some es beta HD) as (E & HE & OE). exists E. split; [exact HE|].
  intros i Hi. rewrite OE. unfold ProofsCReMa.cE. apply ProofsCReMa.esum_zero. intros a b w Hin.
  destruct (HB a b w Hin). unfold ProofsCReMa.hit.
  rewrite (proj2 (Nat.eqb_neq a i)), (proj2 (Nat.eqb_neq b i)) by lia. ring.
Qed.
