(** UBCM: refutations, uniqueness of the parameters, ensemble averages. *)
From Coq Require Import Reals List Arith Lia Lra Bool.
From Verif Require Import Base SpecDeriv SpecGraph SpecEnsemble ModelCM.
From Verif Require Import ProofsGraph ProofsCM ProofsCMHess ProofsEnsemble WitnessCM.
Local Open Scope R_scope.

Lemma hessian_cm_diag_iff n k c x i :
  (i < n)%nat -> (forall q, (q < n)%nat -> 0 < x q) ->
  (partial (fun y => loglikelihood_prime_cm n k c y i) x i
     (loglikelihood_hessian_cm n k c x i i)
   <-> c i * (c i - 1) = 0).
Proof.
  intros Hi Hx. rewrite <- hessian_cm_diag_eq. apply hessian_diag_cm_iff; assumption.
Qed.

Lemma newton_cm_refuted :
  exists n m cls c k x a i j,
    simple_graph n a /\ classes n m cls c /\
    (forall v, (v < n)%nat -> k (cls v) = deg n a v) /\
    (forall q, (q < m)%nat -> 0 < x q) /\ (i < m)%nat /\ (j < m)%nat /\ i <> j /\
    ~ partial (fun y => loglikelihood_prime_cm m k c y i) x j (loglikelihood_hessian_cm m k c x i j) /\
    ~ partial (fun y => loglikelihood_prime_cm m k c y i) x i (loglikelihood_hessian_cm m k c x i i).
Proof.
  exists 3%nat, 2%nat, path3_cls, path3_c, path3_k, path3_x, path3, 0%nat, 1%nat.
  split; [exact path3_simple|]. split; [exact path3_classes|]. split; [exact path3_deg|].
  split; [exact path3_pos|]. split; [lia|]. split; [lia|]. split; [lia|]. split.
  - rewrite hessian_cm_offdiag_iff; [|lia|lia|exact path3_pos].
    unfold path3_c, path3_x; simpl. lra.
  - rewrite hessian_cm_diag_iff; [|lia|exact path3_pos].
    unfold path3_c; simpl. lra.
Qed.

Lemma newton_cm_exp_refuted :
  exists n m cls c k x a i,
    simple_graph n a /\ classes n m cls c /\
    (forall v, (v < n)%nat -> k (cls v) = deg n a v) /\ (i < m)%nat /\
    ~ partial (fun y => loglikelihood_prime_cm_exp m k c y i) x i (loglikelihood_hessian_cm_exp m c x i i).
Proof.
  exists 3%nat, 2%nat, path3_cls, path3_c, path3_k, path3_x, path3, 0%nat.
  split; [exact path3_simple|]. split; [exact path3_classes|]. split; [exact path3_deg|].
  split; [lia|]. rewrite hessian_cm_exp_diag_iff by lia. unfold path3_c; simpl. lra.
Qed.

Lemma quasinewton_cm_refuted :
  exists n m cls c k x a i,
    simple_graph n a /\ classes n m cls c /\
    (forall v, (v < n)%nat -> k (cls v) = deg n a v) /\
    (forall q, (q < m)%nat -> 0 < x q) /\ (i < m)%nat /\
    ~ partial (fun y => loglikelihood_prime_cm m k c y i) x i (loglikelihood_hessian_diag_cm m k c x i).
Proof.
  exists 3%nat, 2%nat, path3_cls, path3_c, path3_k, path3_x, path3, 0%nat.
  split; [exact path3_simple|]. split; [exact path3_classes|]. split; [exact path3_deg|].
  split; [exact path3_pos|]. split; [lia|].
  rewrite hessian_diag_cm_iff; [|lia|exact path3_pos]. unfold path3_c; simpl. lra.
Qed.

Lemma sqrt2_pos : 0 < sqrt 2.
Proof. apply sqrt_lt_R0. lra. Qed.

Lemma ring4_fixed_point :
  (0 < 1)%nat /\ 1 <= 4 /\ 1 < rsum 1 (fun _ => 4) /\ 0 < 2 /\
  iterative_cm 1 (fun _ => 2) (fun _ => 4) (fun _ => sqrt 2) 0 = sqrt 2.
Proof.
  split; [lia|]. split; [lra|]. split; [simpl; lra|]. split; [lra|].
  pose proof (fixed_point_cm_iff 1 (fun _ => 2) (fun _ => 4) (fun _ => sqrt 2) 0 ltac:(lia) ltac:(lra)
    ltac:(lra) sqrt2_pos) as F. apply F.
  pose proof (stationary_cm_iff 4 1 (fun _ => 0%nat) (fun _ => 4) (fun _ => 2) (fun _ => sqrt 2)
     ring4_classes (fun _ _ => sqrt2_pos)) as H.
  apply H; [exact ring4_solution|lia].
Qed.

Lemma solution_cm_unique_parameters n m cls c k x z :
  classes n m cls c -> (3 <= n)%nat ->
  (forall q, (q < m)%nat -> 0 < x q) -> (forall q, (q < m)%nat -> 0 < z q) ->
  (forall i, (i < n)%nat -> expected_degree_cm n (fun j => x (cls j)) i = k (cls i)) ->
  (forall i, (i < n)%nat -> expected_degree_cm n (fun j => z (cls j)) i = k (cls i)) ->
  forall i, (i < n)%nat -> z (cls i) = x (cls i).
Proof.
  intros H Hn Hx Hz Hsx Hsz i Hi.
  assert (Heq : loglikelihood_cm m k c z = loglikelihood_cm m k c x).
  { apply Rle_antisym; apply (solution_cm_max n m cls); assumption. }
  pose proof (solution_cm_strict n m cls c k x z H Hx Hz Hsx Heq) as P.
  assert (exists j l, (j < n)%nat /\ (l < n)%nat /\ i <> j /\ i <> l /\ j <> l)
    as (j & l & Hj & Hl & Hij & Hil & Hjl).
  { destruct i as [|[|i]]; [exists 1%nat, 2%nat|exists 0%nat, 2%nat|exists 0%nat, 1%nat];
      repeat split; lia. }
  pose proof (P i j Hi Hj Hij) as E1. pose proof (P i l Hi Hl Hil) as E2.
  pose proof (P j l Hj Hl Hjl) as E3.
  assert (X : forall v, (v < n)%nat -> 0 < x (cls v)) by (intros; apply Hx, H; assumption).
  assert (Z : forall v, (v < n)%nat -> 0 < z (cls v)) by (intros; apply Hz, H; assumption).
  pose proof (X i Hi). pose proof (X j Hj). pose proof (X l Hl).
  pose proof (Z i Hi). pose proof (Z j Hj). pose proof (Z l Hl).
  set (xi := x (cls i)) in *. set (xj := x (cls j)) in *. set (xl := x (cls l)) in *.
  set (zi := z (cls i)) in *. set (zj := z (cls j)) in *. set (zl := z (cls l)) in *.
  (* zi^2 * (zj zl) = xi^2 * (xj xl) *)
  assert (Q : zi * zi * (zj * zl) = xi * xi * (zj * zl)).
  { replace (zi * zi * (zj * zl)) with ((zi * zj) * (zi * zl)) by ring.
    rewrite E1, E2. rewrite E3. ring. }
  assert (0 < zj * zl) by (apply Rmult_lt_0_compat; assumption).
  apply Rmult_eq_reg_r in Q; [|lra].
  assert (F : (zi - xi) * (zi + xi) = 0) by lra.
  apply Rmult_integral in F. destruct F; lra.
Qed.

Lemma expected_degree_cm_mean n x i :
  (i < n)%nat ->
  mean_undirected n (p_ubcm x) (fun a => deg n a i) = expected_degree_cm n x i.
Proof.
  intros Hi. rewrite mean_undirected_deg, expected_degree_cm_nf; auto.
  intros u v. unfold p_ubcm. rewrite (Rmult_comm (x u)). reflexivity.
Qed.

Lemma all_ugraphs_distinct n :
  ForallOrdPairs (fun a b : nat -> nat -> bool =>
     exists i j, (i < n)%nat /\ (j < n)%nat /\ a i j <> b i j) (all_ugraphs n).
Proof.
  unfold all_ugraphs. pose proof (graphs_on_distinct (upairs n) (NoDup_upairs n)) as H.
  induction H as [|a l Ha Hl IH]; simpl; constructor; [|exact IH].
  apply Forall_forall. intros b Hb. apply in_map_iff in Hb. destruct Hb as [b0 [<- Hb0]].
  rewrite Forall_forall in Ha. destruct (Ha b0 Hb0) as [i [j [Hij Hd]]].
  apply in_upairs in Hij. exists i, j. split; [lia|]. split; [lia|].
  unfold und. destruct (Nat.ltb_spec i j); [exact Hd|lia].
Qed.
