(** CReMa: remaining sparse functions, counterexamples, concrete cases. *)
From Coq Require Import Reals List Arith Lia Lra Bool FunctionalExtensionality.
From Coquelicot Require Import Coquelicot.
From Verif Require Import Base SpecDeriv ProofsDeriv SpecGraph ProofsGraph SpecEnsemble ProofsEnsemble.
From Verif Require Import ModelCM ModelDCM SpecDirected ProofsList ModelDECM ModelCReMa SpecCReMa.
From Verif Require Import ProofsCReMa ProofsMainCReMa ProofsSparseCReMa ProofsDirCReMa ProofsDirSparseCReMa.
Local Open Scope R_scope.
Import ListNotations.

(** Diagonal, directed: the sparse vector has [exp(-100)] in the denominators. *)
Lemma diag_crema_dir_sparse_val n x y beta i :
  (forall i, (i < n)%nat -> 0 <= x i) -> (forall i, (i < n)%nat -> 0 <= y i) -> (i < n)%nat ->
  loglikelihood_hessian_diag_crema_directed_sparse n x y beta i =
    Fin (- rsum n (fun j => dcm_prob x y i j / ((beta i + beta (j + n)%nat) ^ 2 + exp (- (100))))) /\
  loglikelihood_hessian_diag_crema_directed_sparse n x y beta (i + n) =
    Fin (- rsum n (fun j => dcm_prob x y j i / ((beta j + beta (i + n)%nat) ^ 2 + exp (- (100))))).
Proof.
  intros Hx Hy Hi. pose proof (exp_pos (- (100))) as He. unfold loglikelihood_hessian_diag_crema_directed_sparse.
  rewrite (proj2 (Nat.ltb_lt i n) Hi), ltb_plus_n, plus_n_minus. cbv zeta. revert He. generalize (exp (- (100))) as e. intros e He.
  assert (Hne : forall u, u ^ 2 + e <> 0) by (intros u; pose proof (pow2_ge_0 u); lra).
  split.
  - assert (A : forall j, (j < n)%nat -> fquo (fdiv (x i * y j) (1 + x i * y j)) (Fin ((beta i + beta (j + n)%nat) ^ 2 + e))
       = Fin (x i * y j / (1 + x i * y j) / ((beta i + beta (j + n)%nat) ^ 2 + e))).
    { intros j Hj. rewrite fdiv_fin by (apply (dp_ne n); assumption). cbn [fquo]. apply fdiv_fin, Hne. }
    rewrite (fsum_fin n _ (fun j => x i * y j / (1 + x i * y j) / ((beta i + beta (j + n)%nat) ^ 2 + e))) by exact A. rewrite (A i Hi).
    cbn [fsub fadd fopp]. f_equal.
    rewrite (rsum_ext n (fun j => dcm_prob x y i j / _) (fun j => if Nat.eqb i j then 0 else x i * y j / (1 + x i * y j) / ((beta i + beta (j + n)%nat) ^ 2 + e))).
    + rewrite <- (rsum_minus_own n _ i Hi). ring.
    + intros j Hj. unfold dcm_prob. destruct (Nat.eqb i j); [unfold Rdiv; ring|reflexivity].
  - assert (A : forall j, (j < n)%nat -> fquo (fdiv (x j * y i) (1 + x j * y i)) (Fin ((beta j + beta (i + n)%nat) ^ 2 + e))
       = Fin (x j * y i / (1 + x j * y i) / ((beta j + beta (i + n)%nat) ^ 2 + e))).
    { intros j Hj. rewrite fdiv_fin by (apply (dp_ne n); assumption). cbn [fquo]. apply fdiv_fin, Hne. }
    rewrite (fsum_fin n _ (fun j => x j * y i / (1 + x j * y i) / ((beta j + beta (i + n)%nat) ^ 2 + e))) by exact A. rewrite (A i Hi).
    cbn [fsub fadd fopp]. f_equal.
    rewrite (rsum_ext n (fun j => dcm_prob x y j i / _) (fun j => if Nat.eqb i j then 0 else x j * y i / (1 + x j * y i) / ((beta j + beta (i + n)%nat) ^ 2 + e))).
    + rewrite <- (rsum_minus_own n _ i Hi). ring.
    + intros j Hj. unfold dcm_prob. rewrite (Nat.eqb_sym i j). destruct (Nat.eqb j i); [unfold Rdiv; ring|reflexivity].
Qed.

(** The sparse map writes the in-block by position in the list of non-zero
    in-parameters, not by node. *)
Lemma iterative_crema_dir_sparse_unwritten n s_out s_in x y beta i :
  (i < n)%nat -> (length (nonzero_of n y) <= i)%nat ->
  iterative_crema_directed_sparse n s_out s_in x y beta (i + n) = Fin 0.
Proof.
  intros Hi Hl. unfold iterative_crema_directed_sparse. cbv zeta.
  match goal with |- loop ?m ?f ?b ?k = _ => set (F := f); set (B := b) end.
  assert (HF : F (i + n)%nat = Fin 0).
  { unfold F, lloop. assert (G : forall l (f : nat -> fval) body, (forall a, In a l -> (a < n)%nat) ->
      (forall a (f : nat -> fval), (a < n)%nat -> body f a (i + n)%nat = f (i + n)%nat) ->
      fold_left body l f (i + n)%nat = f (i + n)%nat).
    { induction l as [|a l IH]; intros f body Hb Hc; [reflexivity|]. simpl. rewrite IH; auto.
      - apply Hc, Hb. left; reflexivity.
      - intros a' Ha'. apply Hb. right; exact Ha'. }
    rewrite G; [reflexivity| |].
    - intros a Ha. apply filter_In in Ha. destruct Ha as [Ha _]. apply in_seq in Ha. lia.
    - intros a f Ha. cbv beta zeta. rewrite !upd_neq by lia. reflexivity. }
  revert Hl. generalize (length (nonzero_of n y)) as m. induction m as [|m IH]; intros Hl; [exact HF|].
  rewrite loop_S. unfold B at 1. cbv beta zeta. rewrite !upd_neq by lia. apply IH. lia.
Qed.

(** * Concrete cases *)
Definition one3 : nat -> R := fun _ => 1.
Definition quarter : nat -> R := fun _ => / 4.
Definition two3 : nat -> R := fun _ => 2.
Definition tri3 := triu_edges 3 (pmatrix_cm one3).

Lemma pf_one i j : pf one3 i j = / 2.
Proof. unfold pf, one3. field. Qed.
Lemma quarter_dom es : crema_dom es quarter.
Proof. intros i j w _. unfold quarter. lra. Qed.
Lemma one3_nonneg : forall i, (i < 3)%nat -> 0 <= one3 i.
Proof. intros. unfold one3. lra. Qed.

Lemma tri3_facts :
  pairs_below 3 tri3 /\ nonneg_weights tri3 /\ simple_pairs tri3 /\ crema_dom tri3 quarter /\ ends_nonzero tri3 quarter /\
  (forall i, (i < 3)%nat -> 0 <= one3 i) /\ In (0%nat, 1%nat, / 2) tri3 /\
  (exists E, expected_strength_crema_undirected tri3 quarter = Some E /\ forall k, (k < 3)%nat -> E k = two3 k).
Proof.
  split; [apply triu_pairs_below|]. split.
  { intros i j w Hin. apply in_triu in Hin. destruct Hin as ([H1 H2] & -> & Z). destruct (Nat.eq_dec i j) as [->|Hn].
    - rewrite pmatrix_diag. lra.
    - rewrite pmatrix_pf, pf_one by exact Hn. lra. }
  split; [apply triu_simple; intros; apply pmatrix_diag|]. split; [apply quarter_dom|].
  split; [intros i j w _; unfold quarter; lra|]. split; [exact one3_nonneg|]. split.
  { apply in_triu. rewrite pmatrix_pf, pf_one by lia. repeat split; try lia; lra. }
  destruct (expected_crema_some tri3 quarter (quarter_dom _)) as (E & EE & OE). exists E. split; [exact EE|].
  intros k Hk. rewrite OE. unfold cE, tri3.
  rewrite (esum_pmatrix_hit 3 one3 (fun i j w => w / (quarter i + quarter j)) k Hk).
  - unfold quarter, two3. destruct k as [|[|[|k]]]; [| | |lia]; simpl; rewrite !pf_one; field.
  - intros. unfold Rdiv. ring.
  - intros a b w. unfold quarter. reflexivity.
Qed.

(** A graph with an isolated node: zero strength, zero parameters. *)
Definition iso3 : nat -> R := fun i => if Nat.ltb i 2 then 1 else 0.
Definition isoq : nat -> R := fun i => if Nat.ltb i 2 then / 4 else 0.
Lemma iso3_nonneg : forall i, (i < 3)%nat -> 0 <= iso3 i.
Proof. intros. unfold iso3. destruct (Nat.ltb i 2); lra. Qed.
Lemma iso3_dom : crema_dom (triu_edges 3 (pmatrix_cm iso3)) isoq.
Proof.
  intros i j w Hin. apply in_triu in Hin. destruct Hin as ([H1 H2] & -> & Z). destruct (Nat.eq_dec i j) as [->|Hn].
  - rewrite pmatrix_diag in Z. lra.
  - unfold isoq. destruct (Nat.ltb_spec i 2); [|lia]. destruct (Nat.ltb j 2); lra.
Qed.

Lemma crema_sparse_refuted :
  exists n s x beta, (forall i, (i < n)%nat -> 0 <= x i) /\ crema_dom (triu_edges n (pmatrix_cm x)) beta /\
    (exists F, loglikelihood_prime_crema_undirected n s (triu_edges n (pmatrix_cm x)) beta = Some F /\
       forall k, (k < n)%nat -> F k = 0) /\
    (exists i, (i < n)%nat /\ loglikelihood_prime_crema_undirected_sparse n s x beta i = NaN).
Proof.
  exists 3%nat, iso3, iso3, isoq. split; [exact iso3_nonneg|]. split; [exact iso3_dom|]. split.
  - destruct (prime_crema_some 3 iso3 _ isoq iso3_dom) as (F & EF & OF). exists F. split; [exact EF|].
    intros k Hk. rewrite OF, (proj2 (Nat.ltb_lt k 3) Hk). unfold cE.
    rewrite (esum_pmatrix_hit 3 iso3 (fun i j w => w / (isoq i + isoq j)) k Hk).
    + unfold pf, iso3, isoq. destruct k as [|[|[|k]]]; [| | |lia]; simpl; unfold Rdiv; rewrite ?Rmult_0_l, ?Rmult_0_r; field.
    + intros. unfold Rdiv. ring.
    + intros a b w. rewrite (Rplus_comm (isoq a)). reflexivity.
  - exists 2%nat. split; [lia|]. apply crema_sparse_isolated_nan; [lia| |]; unfold iso3, isoq; simpl; reflexivity.
Qed.

(** Directed: node 0 has no in-links, node 2 no out-links. *)
Definition dx3 : nat -> R := fun i => if Nat.ltb i 2 then 1 else 0.
Definition dy3 : nat -> R := fun i => if Nat.eqb i 0 then 0 else 1.
Definition dso3 : nat -> R := fun i => if Nat.eqb i 0 then 2 else if Nat.eqb i 1 then 1 else 0.
Definition dsi3 : nat -> R := fun i => if Nat.eqb i 0 then 0 else if Nat.eqb i 1 then 1 else 2.
Definition des3 := all_edges 3 (dcm_prob dx3 dy3).

Lemma dx3_nonneg : forall i, (i < 3)%nat -> 0 <= dx3 i.
Proof. intros. unfold dx3. destruct (Nat.ltb i 2); lra. Qed.
Lemma dy3_nonneg : forall i, (i < 3)%nat -> 0 <= dy3 i.
Proof. intros. unfold dy3. destruct (Nat.eqb i 0); lra. Qed.
Lemma quarter_dir_dom es : crema_dir_dom 3 es quarter.
Proof. intros i j w _. unfold quarter. lra. Qed.

Lemma des3_facts :
  nonzero_list 3 dso3 [0; 1]%nat /\ nonzero_list 3 dsi3 [1; 2]%nat /\
  pairs_below 3 des3 /\ nonneg_weights des3 /\ simple_arcs des3 /\ crema_dir_dom 3 des3 quarter /\
  ends_nonzero_dir 3 des3 quarter /\ In (0%nat, 1%nat, / 2) des3 /\
  (forall i, (i < 3)%nat -> 0 <= dx3 i) /\ (forall i, (i < 3)%nat -> 0 <= dy3 i) /\
  (forall i, (i < 3)%nat -> (dx3 i <> 0 <-> dso3 i <> 0)) /\ (forall i, (i < 3)%nat -> (dy3 i <> 0 <-> dsi3 i <> 0)) /\
  (forall i j, (i < 3)%nat -> (j < 3)%nat -> dso3 i <> 0 \/ dsi3 j <> 0 -> quarter i + quarter (j + 3)%nat <> 0) /\
  (exists EO EI, expected_out_strength_crema_directed 3 des3 quarter = Some EO /\
     expected_in_strength_crema_directed 3 des3 quarter = Some EI /\
     forall i, (i < 3)%nat -> EO i = dso3 i /\ EI i = dsi3 i).
Proof.
  split; [split; [repeat constructor; simpl; intuition lia|]|].
  { intros i; split; [intros [<-|[<-|[]]]; (split; [lia|unfold dso3; simpl; lra])|].
    intros [H1 H2]. destruct i as [|[|[|i]]]; simpl; auto; try lia; exfalso; apply H2; reflexivity. }
  split; [split; [repeat constructor; simpl; intuition lia|]|].
  { intros i; split; [intros [<-|[<-|[]]]; (split; [lia|unfold dsi3; simpl; lra])|].
    intros [H1 H2]. destruct i as [|[|[|i]]]; simpl; auto; try lia; exfalso; apply H2; reflexivity. }
  split; [apply es_below|]. split; [apply es_nonneg; [exact dx3_nonneg|exact dy3_nonneg]|]. split; [apply es_simple|].
  split; [apply quarter_dir_dom|]. split; [intros i j w _; unfold quarter; lra|]. split.
  { apply in_all. unfold dcm_prob, dx3, dy3. simpl. repeat split; try lia; lra. }
  split; [exact dx3_nonneg|]. split; [exact dy3_nonneg|].
  split; [intros [|[|[|i]]] Hi; [| | |lia]; unfold dx3, dso3; simpl; lra|].
  split; [intros [|[|[|i]]] Hi; [| | |lia]; unfold dy3, dsi3; simpl; lra|].
  split; [intros; unfold quarter; lra|].
  destruct (expected_out_crema_dir 3 des3 quarter (quarter_dir_dom _)) as (EO & E1 & O1).
  destruct (expected_in_crema_dir 3 des3 (es_below 3 dx3 dy3) quarter (quarter_dir_dom _)) as (EI & E2 & O2).
  exists EO, EI. split; [exact E1|]. split; [exact E2|]. intros i Hi. rewrite O1, O2 by exact Hi. unfold des3.
  rewrite cE_out, cE_in by exact Hi.
  unfold quarter, dcm_prob, dx3, dy3, dso3, dsi3. destruct i as [|[|[|i]]]; [| | |lia]; simpl; split; field.
Qed.

Lemma iterative_crema_dir_sparse_refuted :
  exists n s_out s_in x y nzo nzi beta,
    nonzero_list n s_out nzo /\ nonzero_list n s_in nzi /\
    (forall i, (i < n)%nat -> 0 <= x i) /\ (forall i, (i < n)%nat -> 0 <= y i) /\
    (forall i, (i < n)%nat -> (x i <> 0 <-> s_out i <> 0)) /\ (forall i, (i < n)%nat -> (y i <> 0 <-> s_in i <> 0)) /\
    crema_dir_dom n (all_edges n (dcm_prob x y)) beta /\
    (exists F, loglikelihood_prime_crema_directed n s_out s_in (all_edges n (dcm_prob x y)) nzo nzi beta = Some F /\
       forall r, (r < n + n)%nat -> F r = 0) /\
    (exists i, (i < n)%nat /\ s_in i <> 0 /\ beta (i + n)%nat <> 0 /\
       iterative_crema_directed_sparse n s_out s_in x y beta (i + n) = Fin 0).
Proof.
  destruct des3_facts as (A1 & A2 & A3 & _ & _ & A6 & _ & _ & A9 & A10 & A11 & A12 & _ & (EO & EI & Q1 & Q2 & Q)).
  exists 3%nat, dso3, dsi3, dx3, dy3, [0; 1]%nat, [1; 2]%nat, quarter.
  split; [exact A1|]. split; [exact A2|]. split; [exact A9|]. split; [exact A10|]. split; [exact A11|]. split; [exact A12|].
  split; [exact A6|]. split.
  - destruct (stationary_crema_dir_iff 3 dso3 dsi3 des3 [0; 1]%nat [1; 2]%nat quarter A1 A2 A3 A6) as (F & EO' & EI' & H1 & H2 & H3 & H4).
    exists F. split; [exact H1|]. apply H4. rewrite Q1 in H2. rewrite Q2 in H3. injection H2 as <-. injection H3 as <-. exact Q.
  - exists 2%nat. split; [lia|]. split; [unfold dsi3; simpl; lra|]. split; [unfold quarter; lra|].
    apply iterative_crema_dir_sparse_unwritten; [lia|].
    unfold nonzero_of. simpl. unfold dy3. simpl.
    destruct (Req_EM_T 0 0); [|congruence]. destruct (Req_EM_T 1 0); [lra|]. simpl. lia.
Qed.

Lemma diag_crema_dir_sparse_refuted :
  exists n x y beta, (forall i, (i < n)%nat -> 0 <= x i) /\ (forall i, (i < n)%nat -> 0 <= y i) /\
    crema_dir_dom n (all_edges n (dcm_prob x y)) beta /\
    (exists D i, loglikelihood_hessian_diag_crema_directed n (all_edges n (dcm_prob x y)) beta = Some D /\ (i < n)%nat /\
       loglikelihood_hessian_diag_crema_directed_sparse n x y beta i <> Fin (D i)).
Proof.
  exists 3%nat, dx3, dy3, quarter. split; [exact dx3_nonneg|]. split; [exact dy3_nonneg|]. split; [apply quarter_dir_dom|].
  rewrite (diag_crema_dir_eq 3).
  destruct (diag_crema_some (sh 3 (all_edges 3 (dcm_prob dx3 dy3))) quarter (quarter_dom _)) as (D & ED & OD).
  exists D, 1%nat. split; [exact ED|]. split; [lia|].
  destruct (diag_crema_dir_sparse_val 3 dx3 dy3 quarter 1 dx3_nonneg dy3_nonneg ltac:(lia)) as [E _]. rewrite E, OD.
  rewrite esum_opp. rewrite (esum_sh_out 3 dx3 dy3 (fun i j w => w / (quarter i + quarter j) ^ 2) 1) by (try lia; intros; unfold Rdiv; ring).
  pose proof (exp_pos (- (100))) as He. revert He. generalize (exp (- (100))) as e. intros e He.
  unfold dcm_prob, dx3, dy3, quarter. simpl. intros Q. injection Q as Q.
  assert (Z : / (/ 4 + e) = 4).
  { replace ((/ 4 + / 4) * ((/ 4 + / 4) * 1)) with (/ 4) in Q by field. unfold Rdiv in Q. rewrite !Rmult_0_l, !Rmult_0_r, !Rmult_0_l, Rinv_inv in Q.
    replace ((1 * 1 * / (1 + 1 * 1))) with (/ 2) in Q by field. lra. }
  assert (W : (/ 4 + e) * / (/ 4 + e) = 1) by (apply Rinv_r; lra). rewrite Z in W. lra.
Qed.

(** A two-link graph with weights 3 and 5. *)
Definition path3 : topology := [(0%nat, 1%nat, 1); (1%nat, 2%nat, 1)].
Definition pathv (i j : nat) : R := if Nat.eqb i 0 then 3 else 5.
Lemma path3_facts :
  pairs_below 3 path3 /\ crema_dom path3 quarter /\ (forall i j w, In (i, j, w) path3 -> w = 1) /\
  crema_strength path3 pathv 0 = 3 /\ crema_strength path3 pathv 1 = 8 /\ crema_strength path3 pathv 2 = 5 /\
  crema_dir_dom 3 path3 quarter /\ crema_out_strength path3 pathv 1 = 5 /\ crema_in_strength path3 pathv 1 = 3.
Proof.
  split; [intros i j w [E|[E|[]]]; injection E as <- <- <-; split; lia|].
  split; [apply quarter_dom|]. split; [intros i j w [E|[E|[]]]; injection E as <- <- <-; reflexivity|].
  unfold path3, pathv. simpl. repeat split; try (intros i j w _; unfold quarter; lra); ring.
Qed.

(** * Closed statements *)
Lemma sparse_loglik n s x beta :
  (forall i, (i < n)%nat -> 0 <= x i) -> 
  loglikelihood_crema_undirected_sparse n s x beta =
  Some (loglikelihood_crema_undirected n s (triu_edges n (pmatrix_cm x)) beta).
Proof. intros Hx. apply loglik_crema_sparse_eq; assumption. Qed.
Lemma sparse_expected n x beta k :
  (forall i, (i < n)%nat -> 0 <= x i) -> crema_dom (triu_edges n (pmatrix_cm x)) beta ->
  oentry (expected_strength_crema_undirected_sparse n x beta) k =
  oentry (expected_strength_crema_undirected (triu_edges n (pmatrix_cm x)) beta) k.
Proof. intros Hx HD. apply expected_crema_sparse_eq; assumption. Qed.
Lemma sparse_prime n s x beta i :
  (forall i, (i < n)%nat -> 0 <= x i) -> crema_dom (triu_edges n (pmatrix_cm x)) beta ->
  (i < n)%nat -> (forall j, (j < n)%nat -> beta i + beta j <> 0) ->
  exists P, loglikelihood_prime_crema_undirected n s (triu_edges n (pmatrix_cm x)) beta = Some P /\
    loglikelihood_prime_crema_undirected_sparse n s x beta i = Fin (P i).
Proof. intros Hx HD Hi Hb. apply prime_crema_sparse_eq; assumption. Qed.
Lemma sparse_diag n x beta i :
  (forall i, (i < n)%nat -> 0 <= x i) -> crema_dom (triu_edges n (pmatrix_cm x)) beta ->
  (i < n)%nat -> (forall j, (j < n)%nat -> beta i + beta j <> 0) ->
  exists P, loglikelihood_hessian_diag_crema_undirected (triu_edges n (pmatrix_cm x)) beta = Some P /\
    loglikelihood_hessian_diag_crema_undirected_sparse n x beta i = Fin (P i).
Proof. intros Hx HD Hi Hb. apply diag_crema_sparse_eq; assumption. Qed.
Lemma sparse_prime_2 n s x beta k :
  (forall i, (i < n)%nat -> 0 <= x i) -> crema_dom (triu_edges n (pmatrix_cm x)) beta -> (k < n)%nat ->
  oentry (loglikelihood_prime_crema_sparse_2 n s x beta) k =
  oentry (loglikelihood_prime_crema_undirected n s (triu_edges n (pmatrix_cm x)) beta) k.
Proof. intros Hx HD Hk. apply prime_crema_sparse_2_eq; assumption. Qed.
Lemma sparse_diag_2 n x beta k :
  (forall i, (i < n)%nat -> 0 <= x i) -> crema_dom (triu_edges n (pmatrix_cm x)) beta ->
  oentry (loglikelihood_hessian_diag_crema_sparse_2 n x beta) k =
  oentry (loglikelihood_hessian_diag_crema_undirected (triu_edges n (pmatrix_cm x)) beta) k.
Proof. intros Hx HD. apply hessian_diag_crema_sparse_2_eq; assumption. Qed.
Lemma all_edges_simple n p : pairs_below n (all_edges n p) /\ simple_arcs (all_edges n p).
Proof.
  split.
  - intros i j w Hin. apply in_all in Hin. destruct Hin as (H1 & H2 & _). split; assumption.
  - apply NoDup_map_inj_in; [apply NoDup_all|]. intros [[a b] w] [[a' b'] w'] H1 H2 E. simpl in E. injection E as -> ->.
    apply in_all in H1. apply in_all in H2. destruct H1 as (_ & _ & -> & _), H2 as (_ & _ & -> & _). reflexivity.
Qed.
Lemma dir_sparse_loglik n s_out s_in x y nzo nzi beta :
  (forall i, (i < n)%nat -> 0 <= x i) -> (forall i, (i < n)%nat -> 0 <= y i) ->
  nonzero_list n s_out nzo -> nonzero_list n s_in nzi ->
  (forall i, (i < n)%nat -> (x i <> 0 <-> s_out i <> 0)) -> (forall i, (i < n)%nat -> (y i <> 0 <-> s_in i <> 0)) ->
  loglikelihood_crema_directed_sparse n s_out s_in x y nzo nzi beta =
  Some (loglikelihood_crema_directed n s_out s_in (all_edges n (dcm_prob x y)) nzo nzi beta).
Proof. intros Hx Hy Ho Hi Cx Cy. apply loglik_crema_dir_sparse_eq; assumption. Qed.
Lemma dir_sparse_prime n s_out s_in x y nzo nzi beta r :
  (forall i, (i < n)%nat -> 0 <= x i) -> (forall i, (i < n)%nat -> 0 <= y i) ->
  nonzero_list n s_out nzo -> nonzero_list n s_in nzi ->
  (forall i, (i < n)%nat -> (x i <> 0 <-> s_out i <> 0)) -> (forall i, (i < n)%nat -> (y i <> 0 <-> s_in i <> 0)) ->
  crema_dir_dom n (all_edges n (dcm_prob x y)) beta -> (r < n + n)%nat ->
  (forall i j, (i < n)%nat -> (j < n)%nat -> s_out i <> 0 \/ s_in j <> 0 -> beta i + beta (j + n)%nat <> 0) ->
  exists F, loglikelihood_prime_crema_directed n s_out s_in (all_edges n (dcm_prob x y)) nzo nzi beta = Some F /\
    loglikelihood_prime_crema_directed_sparse n s_out s_in x y nzo nzi beta r = Fin (F r).
Proof. intros Hx Hy Ho Hi Cx Cy HD Hr Hb. apply prime_crema_dir_sparse_eq; assumption. Qed.
Lemma dir_sparse_expected n x y beta k :
  (forall i, (i < n)%nat -> 0 <= x i) -> (forall i, (i < n)%nat -> 0 <= y i) ->
  crema_dir_dom n (all_edges n (dcm_prob x y)) beta -> (k < n)%nat ->
  oentry (expected_out_strength_crema_directed_sparse n x y beta) k =
    oentry (expected_out_strength_crema_directed n (all_edges n (dcm_prob x y)) beta) k /\
  oentry (expected_in_stregth_crema_directed_sparse n x y beta) k =
    oentry (expected_in_strength_crema_directed n (all_edges n (dcm_prob x y)) beta) k.
Proof.
  intros Hx Hy HD Hk. split; [apply expected_out_crema_sparse_eq|apply expected_in_crema_sparse_eq]; assumption.
Qed.
