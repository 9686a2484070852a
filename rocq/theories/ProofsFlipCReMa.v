(** Directed CReMa: exchanging the two directions. *)
From Coq Require Import Reals List Arith Lia Lra Bool Permutation FunctionalExtensionality.
From Coquelicot Require Import Coquelicot.
From Verif Require Import Base SpecDeriv ProofsDeriv SpecGraph ProofsGraph SpecEnsemble ProofsEnsemble.
From Verif Require Import ModelDCM SpecDirected ProofsList ModelDECM ModelCReMa SpecCReMa SpecNetwork SpecSymmetry.
From Verif Require Import ProofsUnique ProofsCReMa ProofsMainCReMa ProofsDirCReMa ProofsECM ProofsRelabel ProofsEquiCReMa ProofsFlip.
Local Open Scope R_scope.
Import ListNotations.

Section D.
Variables (n : nat) (es' es : topology).
Hypothesis HR : reversed_arcs es' es.
Hypothesis HB : pairs_below n es'.
Hypothesis HBs : pairs_below n es.
Local Notation renb v := (fun r : nat => v (flip n r)).

Lemma flip_relabelling : relabelling (n + n) (flip n).
Proof.
  assert (S : forall r, (r < n + n)%nat -> exists i, (i < n)%nat /\
     ((r = i /\ flip n r = i + n) \/ (r = (i + n) /\ flip n r = i))%nat).
  { intros r Hr. destruct (Nat.lt_ge_cases r n) as [H|H].
    - exists r. split; [exact H|]. left. split; [reflexivity|apply flip0; exact H].
    - exists (r - n)%nat. split; [lia|]. right. split; [lia|].
      replace r with (r - n + n)%nat at 1 by lia. apply flip1. lia. }
  split.
  - intros r Hr. destruct (S r Hr) as (i & Hi & [[-> ->]|[-> ->]]); lia.
  - intros r t Hr Ht E.
    destruct (S r Hr) as (i & Hi & Ci). destruct (S t Ht) as (j & Hj & Cj). lia.
Qed.

Lemma sh_flipped : renamed_pairs (flip n) (sh n es') (sh n es).
Proof.
  unfold renamed_pairs.
  replace (map (fun e => upair (rename_edge (flip n) e)) (sh n es')) with (map upair (sh n (map reverse_edge es'))).
  - apply Permutation_map. unfold sh. apply Permutation_map. exact HR.
  - unfold sh. rewrite !map_map. apply map_ext_in. intros [[i j] w] H. destruct (HB i j w H).
    unfold rename_edge, reverse_edge, upair; simpl. rewrite flip0, flip1 by assumption.
    rewrite Nat.min_comm, Nat.max_comm. reflexivity.
Qed.

Lemma cat_flipped a b r : (r < n + n)%nat -> cat n b a r = cat n a b (flip n r).
Proof.
  intros Hr. destruct (Nat.lt_ge_cases r n) as [H|H].
  - rewrite flip0 by exact H. unfold cat.
    rewrite ltb_plus_n, plus_n_minus, (proj2 (Nat.ltb_lt _ _) H). reflexivity.
  - replace r with (r - n + n)%nat by lia. rewrite flip1 by lia. unfold cat. rewrite ltb_plus_n, plus_n_minus.
    rewrite (proj2 (Nat.ltb_lt (r - n) n)) by lia. reflexivity.
Qed.

Variables (s_out s_in : nat -> R) (nzo nzi : list nat) (beta : nat -> R).
Hypothesis Ho : nonzero_list n s_out nzo.
Hypothesis Hi : nonzero_list n s_in nzi.

Lemma loglik_crema_dir_flip :
  loglikelihood_crema_directed n s_in s_out es' nzi nzo (renb beta)
  = loglikelihood_crema_directed n s_out s_in es nzo nzi beta.
Proof.
  rewrite (loglik_crema_dir_eq n _ _ es' nzi nzo Hi Ho), (loglik_crema_dir_eq n _ _ es nzo nzi Ho Hi).
  rewrite <- (loglik_crema_equi (n + n) (flip n) (sh n es') (sh n es) flip_relabelling sh_flipped beta).
  rewrite !loglik_crema_nf. unfold cL. f_equal. f_equal. apply rsum_ext. intros r Hr.
  rewrite cat_flipped by exact Hr. reflexivity.
Qed.
Lemma prime_crema_dir_flip r : crema_dir_dom n es beta -> (r < 2 * n)%nat ->
  oentry (loglikelihood_prime_crema_directed n s_in s_out es' nzi nzo (renb beta)) r
  = oentry (loglikelihood_prime_crema_directed n s_out s_in es nzo nzi beta) (flip n r).
Proof.
  intros HD Hr. assert (Hr2 : (r < n + n)%nat) by lia.
  rewrite (prime_crema_dir_eq n _ _ es' nzi nzo Hi Ho), (prime_crema_dir_eq n _ _ es nzo nzi Ho Hi).
  apply sh_dom in HD.
  rewrite <- (prime_crema_equi (n + n) (flip n) (sh n es') (sh n es) flip_relabelling sh_flipped (sh_below n es' HB) beta _ r HD Hr2).
  destruct (prime_crema_some (n + n) (cat n s_in s_out) (sh n es') (renb beta)
     (dom_renamed (flip n) (sh n es') (sh n es) sh_flipped beta HD)) as (F & E & O).
  destruct (prime_crema_some (n + n) (renb (cat n s_out s_in)) (sh n es') (renb beta)
     (dom_renamed (flip n) (sh n es') (sh n es) sh_flipped beta HD)) as (G & E2 & O2).
  rewrite E. cbn [oentry]. etransitivity; [|symmetry; exact (f_equal (fun f => oentry f r) E2)]. cbn [oentry].
  rewrite O, O2, cat_flipped by exact Hr2. reflexivity.
Qed.
Lemma diag_crema_dir_flip r : crema_dir_dom n es beta -> (r < 2 * n)%nat ->
  oentry (loglikelihood_hessian_diag_crema_directed n es' (renb beta)) r
  = oentry (loglikelihood_hessian_diag_crema_directed n es beta) (flip n r).
Proof.
  intros HD Hr. rewrite !diag_crema_dir_eq. apply sh_dom in HD.
  apply (diag_crema_equi (n + n) (flip n) (sh n es') (sh n es) flip_relabelling sh_flipped (sh_below n es' HB)); [exact HD|lia].
Qed.
Lemma hessian_crema_dir_flip r t : crema_dir_dom n es beta -> simple_arcs es' -> simple_arcs es ->
  (r < 2 * n)%nat -> (t < 2 * n)%nat ->
  oentry2 (loglikelihood_hessian_crema_directed n es' (renb beta)) r t
  = oentry2 (loglikelihood_hessian_crema_directed n es beta) (flip n r) (flip n t).
Proof.
  intros HD S' S Hr Ht. rewrite (hessian_crema_dir_eq n es' HB), (hessian_crema_dir_eq n es HBs). apply sh_dom in HD.
  apply (hessian_crema_equi (n + n) (flip n) (sh n es') (sh n es) flip_relabelling sh_flipped (sh_below n es' HB));
    [exact HD|apply sh_simple; assumption|apply sh_simple; assumption|lia|lia].
Qed.
Lemma iterative_crema_dir_flip r : crema_dir_dom n es beta -> ends_nonzero_dir n es beta -> (r < 2 * n)%nat ->
  oentry (iterative_crema_directed n s_in s_out es' nzi nzo (renb beta)) r
  = oentry (iterative_crema_directed n s_out s_in es nzo nzi beta) (flip n r).
Proof.
  intros HD HN Hr. assert (Hr2 : (r < n + n)%nat) by lia.
  rewrite (iterative_crema_dir_eq n _ _ es' nzi nzo Hi Ho), (iterative_crema_dir_eq n _ _ es nzo nzi Ho Hi).
  apply sh_dom in HD. apply sh_ends in HN.
  rewrite <- (iterative_crema_equi (n + n) (flip n) (sh n es') (sh n es) flip_relabelling sh_flipped (sh_below n es' HB) beta _ r HD HN Hr2).
  destruct (iterative_crema_some (n + n) (cat n s_in s_out) (sh n es') (renb beta)
     (dom_renamed (flip n) (sh n es') (sh n es) sh_flipped beta HD)
     (ends_renamed (flip n) (sh n es') (sh n es) sh_flipped beta HN)) as (F & E & O).
  destruct (iterative_crema_some (n + n) (renb (cat n s_out s_in)) (sh n es') (renb beta)
     (dom_renamed (flip n) (sh n es') (sh n es) sh_flipped beta HD)
     (ends_renamed (flip n) (sh n es') (sh n es) sh_flipped beta HN)) as (G & E2 & O2).
  rewrite E. cbn [oentry]. etransitivity; [|symmetry; exact (f_equal (fun f => oentry f r) E2)]. cbn [oentry].
  rewrite O, O2, cat_flipped by exact Hr2. reflexivity.
Qed.
Lemma renb_dir_dom : crema_dir_dom n es beta -> crema_dir_dom n es' (renb beta).
Proof.
  intros HD i j w H. destruct (HB i j w H). rewrite flip0, flip1 by assumption.
  rewrite Rplus_comm. apply (HD j i w). eapply Permutation_in; [exact HR|]. apply in_map_iff. exists (i, j, w). auto.
Qed.
Lemma expected_crema_dir_flip i : crema_dir_dom n es beta -> (i < n)%nat ->
  oentry (expected_out_strength_crema_directed n es' (renb beta)) i
    = oentry (expected_in_strength_crema_directed n es beta) i /\
  oentry (expected_in_strength_crema_directed n es' (renb beta)) i
    = oentry (expected_out_strength_crema_directed n es beta) i.
Proof.
  intros HD Hin.
  destruct (expected_out_crema_dir n es beta HD) as (A & EA & OA).
  destruct (expected_in_crema_dir n es HBs beta HD) as (B & EB & OB).
  destruct (expected_out_crema_dir n es' (renb beta) (renb_dir_dom HD)) as (C & EC & OC).
  destruct (expected_in_crema_dir n es' HB (renb beta) (renb_dir_dom HD)) as (D & ED & OD).
  rewrite EA, EB, EC, ED. cbn [oentry]. rewrite OA, OB, OC, OD by assumption.
  rewrite !(cE_renamed (n + n) (flip n) (sh n es') (sh n es) flip_relabelling sh_flipped (sh_below n es' HB)) by lia.
  rewrite flip0, flip1 by exact Hin. auto.
Qed.
End D.

(** All ordered pairs of the transposed matrix. *)
Lemma all_reversed n (m : nat -> nat -> R) :
  reversed_arcs (all_edges n (fun i j => m j i)) (all_edges n m).
Proof.
  unfold reversed_arcs. apply NoDup_Permutation.
  - apply NoDup_map_inj_in; [apply NoDup_all|].
    intros [[a b] v] [[c d] u] _ _ E. unfold reverse_edge in E; simpl in E. congruence.
  - apply NoDup_all.
  - intros [[a b] v]. rewrite in_map_iff. split.
    + intros ([[c d] u] & E & H). apply in_all in H. destruct H as (H1 & H2 & -> & N). unfold reverse_edge in E; simpl in E.
      injection E as <- <- <-. apply in_all. auto.
    + intros H. apply in_all in H. destruct H as (H1 & H2 & -> & N).
      exists (b, a, m a b). split; [reflexivity|]. apply in_all. auto.
Qed.
