(** Directed models on symmetric constraints. *)
From Coq Require Import Reals List Arith Lia Lra Permutation.
From Verif Require Import Base SpecEnsemble SpecGraph SpecDirected SpecWeighted SpecCReMa SpecReduce ModelCM ModelDCM ModelECM ModelDECM ModelCReMa
  ProofsGraph ProofsEnsemble ProofsList ProofsRelabel ProofsCM ProofsDCM ProofsMainDCM ProofsECM ProofsMainECM ProofsDECM ProofsMainDECM ProofsFixDECM ProofsAlike ProofsCReMa ProofsMainCReMa ProofsDirCReMa.
Import ListNotations.
Local Open Scope R_scope.

Lemma nonzero_all n k l : nonzero_list n k l -> (forall i, (i < n)%nat -> k i <> 0) -> Permutation l (seq 0 n).
Proof.
  intros [Hd Hin] Hk. apply NoDup_Permutation; [exact Hd|apply seq_NoDup|].
  intros i. rewrite Hin, in_seq. split; [intros [H _]; lia|intros H; split; [lia|apply Hk; lia]].
Qed.
Lemma lsum_all n k l g : nonzero_list n k l -> (forall i, (i < n)%nat -> k i <> 0) -> lsum l g = rsum n g.
Proof. intros H Hk. rewrite (lsum_perm l (seq 0 n)) by exact (nonzero_all n k l H Hk). apply lsum_seq. Qed.

(** * UBCM and DBCM *)
Lemma expected_dcm_both n x z i : both n x z -> (i < n)%nat ->
  expected_out_degree_dcm n z i = expected_degree_cm n x i /\
  expected_in_degree_dcm n z i = expected_degree_cm n x i.
Proof.
  intros B Hi. rewrite expected_out_degree_dcm_nf, expected_in_degree_dcm_nf, expected_degree_cm_nf by exact Hi.
  split; apply rsum_ext; intros j Hj; destruct (Nat.eqb i j); try reflexivity; unfold p_dbcm, p_ubcm;
    rewrite ?(proj1 (B i Hi)), ?(proj2 (B i Hi)), ?(proj1 (B j Hj)), ?(proj2 (B j Hj)); [reflexivity|].
  rewrite (Rmult_comm (x j)). reflexivity.
Qed.

Lemma loglik_dcm_both n k nz c x z : both n x z -> nonzero_list n k nz ->
  (forall i, (i < n)%nat -> k i <> 0) ->
  loglikelihood_dcm n k k nz nz c z = 2 * loglikelihood_cm n k c x.
Proof.
  intros B Hnz Hk. rewrite loglik_dcm_nf.
  unfold loglikelihood_cm.
  rewrite (loop_add n 0 _ (fun i => c i * k i * ln (x i)
     - rsum n (fun j => if Nat.eqb i j then (c i * (c i - 1) * ln (1 + (x i) ^ 2)) / 2
                        else (c i * c j * ln (1 + x i * x j)) / 2))).
  2: { intros i acc _.
       rewrite (loop_sub n _ _ (fun j => if Nat.eqb i j then (c i * (c i - 1) * ln (1 + (x i) ^ 2)) / 2
                        else (c i * c j * ln (1 + x i * x j)) / 2)); [ring|].
       intros j acc' _. destruct (Nat.eqb i j); ring. }
  rewrite rsum_minus.
  rewrite !(lsum_all n k nz) by assumption.
  rewrite (rsum_ext n (fun i => lsum nz _) (fun i => 2 * rsum n (fun j => if Nat.eqb i j then (c i * (c i - 1) * ln (1 + (x i) ^ 2)) / 2
                        else (c i * c j * ln (1 + x i * x j)) / 2))).
  2: { intros i Hi. rewrite (lsum_all n k nz), <- rsum_scal_l by assumption. apply rsum_ext. intros j Hj.
       rewrite (proj1 (B i Hi)), (proj2 (B j Hj)). unfold pairmult.
       destruct (Nat.eqb_spec i j) as [<-|]; [replace ((x i) ^ 2) with (x i * x i) by ring|]; field. }
  rewrite rsum_scal_l.
  rewrite (rsum_ext n _ (fun i => c i * k i * ln (x i))) by (intros i Hi; rewrite (proj1 (B i Hi)); ring).
  rewrite (rsum_ext n (fun j => c j * k j * ln (z (j + n)%nat)) (fun i => c i * k i * ln (x i)))
    by (intros i Hi; rewrite (proj2 (B i Hi)); ring).
  ring.
Qed.

Lemma prime_dcm_both n k nz c x z i : both n x z -> nonzero_list n k nz ->
  (forall i, (i < n)%nat -> k i <> 0) -> (i < n)%nat ->
  loglikelihood_prime_dcm n k k nz nz c z i = loglikelihood_prime_cm n k c x i /\
  loglikelihood_prime_dcm n k k nz nz c z (i + n) = loglikelihood_prime_cm n k c x i.
Proof.
  intros B Hnz Hk Hi.
  assert (Hin : In i nz) by (apply Hnz; split; [exact Hi|apply Hk; exact Hi]).
  rewrite prime_dcm_out, prime_dcm_in by assumption.
  rewrite !(lsum_all n k nz) by assumption. rewrite (proj1 (B i Hi)), (proj2 (B i Hi)).
  unfold loglikelihood_prime_cm. cbv zeta.
  rewrite (loop_sub n _ _ (fun j => pairmult c i j * (x j / (1 + x i * x j)))).
  2: { intros j a _. unfold pairmult. destruct (Nat.eqb_spec i j) as [<-|]; [|ring].
       replace ((x i) ^ 2) with (x i * x i) by ring. ring. }
  split; (f_equal; [ring|]); apply rsum_ext; intros j Hj.
  - rewrite (proj2 (B j Hj)). reflexivity.
  - rewrite (proj1 (B j Hj)). rewrite (Rmult_comm (x j)). f_equal. unfold pairmult.
    rewrite (Nat.eqb_sym j i). destruct (Nat.eqb_spec i j) as [<-|]; ring.
Qed.

Lemma iterative_dcm_both n k c x z i : both n x z -> (i < n)%nat ->
  (forall q, (q < n)%nat -> 0 < x q) -> (forall q, (q < n)%nat -> 1 <= c q) ->
  (1 < c i \/ exists j, (j < n)%nat /\ j <> i) ->
  iterative_dcm n k k c z i = Fin (iterative_cm n k c x i) /\
  iterative_dcm n k k c z (i + n) = Fin (iterative_cm n k c x i).
Proof.
  intros B Hi Hx Hc Hex.
  set (g := fun j => (if Nat.eqb i j then c j - 1 else c j) * (x j / (1 + x j * x i))).
  assert (Gp : 0 < rsum n g).
  { assert (P : forall j, (j < n)%nat -> 0 < x j / (1 + x j * x i)).
    { intros j Hj. pose proof (Hx j Hj). pose proof (Hx i Hi). apply Rdiv_lt_0_compat; [assumption|].
      assert (0 < x j * x i) by (apply Rmult_lt_0_compat; assumption). lra. }
    assert (Q : forall j, (j < n)%nat -> 0 <= g j).
    { intros j Hj. unfold g. apply Rmult_le_pos; [|left; apply P; exact Hj].
      pose proof (Hc j Hj). destruct (Nat.eqb i j); lra. }
    destruct Hex as [H|[j [Hj Hne]]].
    - apply (rsum_pos n g i); [exact Q|exact Hi|]. unfold g. rewrite Nat.eqb_refl.
      apply Rmult_lt_0_compat; [lra|apply P; exact Hi].
    - apply (rsum_pos n g j); [exact Q|exact Hj|]. unfold g. destruct (Nat.eqb_spec i j) as [->|]; [congruence|].
      apply Rmult_lt_0_compat; [pose proof (Hc j Hj); lra|apply P; exact Hj]. }
  assert (E0 : iterative_cm n k c x i = k i / rsum n g).
  { unfold iterative_cm. cbv zeta. rewrite (loop_add n 0 _ g).
    - rewrite Rplus_0_l. destruct (Req_EM_T (rsum n g) 0); [lra|reflexivity].
    - intros j a _. unfold g. destruct (Nat.eqb i j); ring. }
  assert (E1 : dcm_f_out n c z i = rsum n g).
  { unfold dcm_f_out. rewrite (loop_add n 0 _ g); [ring|].
    intros j a Hj. unfold g. rewrite (proj1 (B i Hi)), (proj2 (B j Hj)), (Nat.eqb_sym j i), (Rmult_comm (x i)).
    destruct (Nat.eqb i j); cbn [negb]; unfold Rdiv; ring. }
  assert (E2 : dcm_f_in n c z i = rsum n g).
  { unfold dcm_f_in. rewrite (loop_add n 0 _ g); [ring|].
    intros j a Hj. unfold g. rewrite (proj1 (B j Hj)), (proj2 (B i Hi)).
    destruct (Nat.eqb i j); cbn [negb]; unfold Rdiv; ring. }
  unfold iterative_dcm. rewrite (proj2 (Nat.ltb_lt i n) Hi), ltb_plus_n, plus_n_minus, E0, E1, E2.
  unfold fdiv. destruct (Req_EM_T (rsum n g) 0); [lra|split; reflexivity].
Qed.

(** A solution of the undirected model gives one of the directed model, and
    every solution of the directed model has its probabilities. *)
Lemma solution_dcm_both n k nz x z : nonzero_list n k nz ->
  (forall i, (i < n)%nat -> k i <> 0 -> 0 < x i) -> (forall i, (i < n)%nat -> k i = 0 -> x i = 0) ->
  (forall i, (i < n)%nat -> expected_degree_cm n x i = k i) ->
  dcm_full n nz nz z ->
  (forall i, (i < n)%nat -> expected_out_degree_dcm n z i = k i /\ expected_in_degree_dcm n z i = k i) ->
  forall i j, (i < n)%nat -> (j < n)%nat -> i <> j ->
    p_dbcm z (fun j => z (j + n)%nat) i j = p_ubcm x i j.
Proof.
  intros Hnz Hx Hx0 Hs Hz Hsz i j Hi Hj Hij.
  set (x2 := fun r => if Nat.ltb r n then x r else x (r - n)%nat).
  assert (B : both n x x2).
  { intros l Hl. unfold x2. rewrite (proj2 (Nat.ltb_lt l n) Hl), ltb_plus_n, plus_n_minus. split; reflexivity. }
  assert (F : dcm_full n nz nz x2).
  { split; [split|split].
    - intros l Hl. apply Hnz in Hl. rewrite (proj1 (B l (proj1 Hl))). apply Hx; apply Hl.
    - intros l Hl. apply Hnz in Hl. rewrite (proj2 (B l (proj1 Hl))). apply Hx; apply Hl.
    - intros l Hl Hn. rewrite (proj1 (B l Hl)). apply Hx0; [exact Hl|].
      destruct (Req_EM_T (k l) 0) as [E|E]; [exact E|]. exfalso. apply Hn, Hnz. split; assumption.
    - intros l Hl Hn. rewrite (proj2 (B l Hl)). apply Hx0; [exact Hl|].
      destruct (Req_EM_T (k l) 0) as [E|E]; [exact E|]. exfalso. apply Hn, Hnz. split; assumption. }
  assert (S2 : forall i, (i < n)%nat -> expected_out_degree_dcm n x2 i = k i /\ expected_in_degree_dcm n x2 i = k i).
  { intros l Hl. destruct (expected_dcm_both n x x2 l B Hl) as [-> ->]. rewrite Hs by exact Hl. split; reflexivity. }
  assert (E : loglikelihood_dcm n k k nz nz (fun _ => 1) z = loglikelihood_dcm n k k nz nz (fun _ => 1) x2).
  { apply Rle_antisym; apply (solution_dcm_max_full n n (fun i => i)); try assumption; try apply classes_id;
      rewrite expand_id; assumption. }
  pose proof (solution_dcm_strict n n (fun i => i) k k nz nz (fun _ => 1) x2 (classes_id n) Hnz Hnz F z Hz) as P.
  rewrite expand_id in P. specialize (P S2 E i j Hi Hj Hij). cbv beta in P.
  rewrite (proj1 (B i Hi)), (proj2 (B j Hj)) in P. unfold p_dbcm, p_ubcm. rewrite <- P. reflexivity.
Qed.

(** Exponential parametrisation. *)
Lemma both_exp n x z : both n x z -> both n (fun i => exp (- x i)) (fun i => exp (- z i)).
Proof. intros B i Hi. destruct (B i Hi) as [-> ->]. split; reflexivity. Qed.
Lemma loglik_dcm_exp_both n k nz c x z : both n x z -> nonzero_list n k nz ->
  (forall i, (i < n)%nat -> k i <> 0) ->
  loglikelihood_dcm_exp n k k nz nz c z = 2 * loglikelihood_cm_exp n k c x.
Proof.
  intros B Hnz Hk. rewrite (loglik_dcm_exp_eq n k k nz nz c z (fun i => exp (- z i))) by reflexivity.
  rewrite (loglik_dcm_both n k nz c (fun i => exp (- x i))), loglik_cm_exp_eq by (try apply both_exp; assumption).
  reflexivity.
Qed.
Lemma prime_dcm_exp_both n k nz c x z i : both n x z -> nonzero_list n k nz ->
  (forall i, (i < n)%nat -> k i <> 0) -> (i < n)%nat ->
  loglikelihood_prime_dcm_exp n k k nz nz c z i = loglikelihood_prime_cm_exp n k c x i /\
  loglikelihood_prime_dcm_exp n k k nz nz c z (i + n) = loglikelihood_prime_cm_exp n k c x i.
Proof.
  intros B Hnz Hk Hi. rewrite !(prime_dcm_exp_eq n k k nz nz c z (fun i => exp (- z i))) by (reflexivity || lia).
  destruct (prime_dcm_both n k nz c (fun i => exp (- x i)) (fun i => exp (- z i)) i (both_exp n x z B) Hnz Hk Hi) as [-> ->].
  rewrite prime_cm_exp_eq by exact Hi. destruct (B i Hi) as [-> ->]. split; reflexivity.
Qed.
Lemma expected_dcm_exp_both n x z i : both n x z -> (i < n)%nat ->
  expected_out_degree_dcm_exp n z i = expected_degree_cm n (fun i => exp (- x i)) i /\
  expected_in_degree_dcm_exp n z i = expected_degree_cm n (fun i => exp (- x i)) i.
Proof.
  intros B Hi. split.
  - unfold expected_out_degree_dcm_exp. rewrite expected_degree_cm_nf, loop_add_skip, Rplus_0_l.
    apply rsum_ext. intros j Hj. unfold p_ubcm. rewrite (proj1 (B i Hi)), (proj1 (B j Hj)). reflexivity.
  - rewrite expected_in_degree_dcm_exp_eq by exact Hi.
    exact (proj2 (expected_dcm_both n _ _ i (both_exp n x z B) Hi)).
Qed.

(** * UECM and DECM *)
Ltac b2 B i j Hi Hj :=
  let a1 := fresh in let a2 := fresh in let a3 := fresh in let a4 := fresh in
  let b1 := fresh in let b2 := fresh in let b3 := fresh in let b4 := fresh in
  destruct (B i Hi) as (a1 & a2 & a3 & a4); destruct (B j Hj) as (b1 & b2 & b3 & b4);
  rewrite ?a1, ?a2, ?a3, ?a4, ?b1, ?b2, ?b3, ?b4; clear a1 a2 a3 a4 b1 b2 b3 b4.
Ltac pairs HD i j :=
  let F := fresh in
  pose proof (ecm_pair_facts _ _ i j HD ltac:(lia) ltac:(lia) ltac:(lia)) as F;
  destruct F as (? & ? & ? & ? & ? & ? & ? & ? & ?).

Lemma expected_decm_both n sol z i : both2 n sol z -> ecm_dom n sol -> (i < n)%nat ->
  expected_decm n z i = expected_ecm n sol i /\ expected_decm n z (i + n) = expected_ecm n sol i /\
  expected_decm n z (i + 2 * n) = expected_ecm n sol (i + n) /\
  expected_decm n z (i + 3 * n) = expected_ecm n sol (i + n).
Proof.
  intros B HD Hi. rewrite expected_ecm_x, expected_ecm_y by exact Hi. unfold expected_decm.
  rewrite (by_block0 n i Hi), (by_block1 n i Hi), (by_block2 n i Hi), (by_block3 n i Hi), !loop_add_skip, !Rplus_0_l.
  repeat split; rewrite <- rsum_scal_l; apply rsum_ext; intros j Hj;
    (destruct (Nat.eqb_spec i j) as [|Hne]; [ring|]); b2 B i j Hi Hj; pairs HD i j; field; repeat split; lra.
Qed.

Lemma loglik_decm_both n k s sol z : both2 n sol z -> ecm_dom n sol ->
  loglikelihood_decm n k k s s z = 2 * loglikelihood_ecm n k s sol.
Proof.
  intros B HD. rewrite loglik_decm_nf, loglik_ecm_nf, Rmult_plus_distr_l. f_equal.
  - rewrite <- rsum_scal_l. apply rsum_ext. intros i Hi. rewrite !klog_eq.
    destruct (B i Hi) as (-> & -> & -> & ->). ring.
  - unfold PairSum, Row_out. rewrite <- (rsum_offdiag_sym n).
    + apply rsum_ext. intros i Hi. apply rsum_ext. intros j Hj. destruct (Nat.eqb_spec i j) as [|Hne]; [reflexivity|].
      unfold gL. b2 B i j Hi Hj. pairs HD i j. rewrite ln_div by
        (rewrite (Rmult_comm (sol (j + n)%nat)), ?(Rmult_comm (sol j)); assumption).
      rewrite (Rmult_comm (sol (j + n)%nat)), (Rmult_comm (sol j)). reflexivity.
    + intros i j. rewrite (Rmult_comm (sol (j + n)%nat)), (Rmult_comm (sol j)). reflexivity.
Qed.

Lemma prime_decm_both n k s sol z i : both2 n sol z -> ecm_dom n sol -> (i < n)%nat ->
  loglikelihood_prime_decm n k k s s z i = loglikelihood_prime_ecm n k s sol i /\
  loglikelihood_prime_decm n k k s s z (i + n) = loglikelihood_prime_ecm n k s sol i /\
  loglikelihood_prime_decm n k k s s z (i + 2 * n) = loglikelihood_prime_ecm n k s sol (i + n) /\
  loglikelihood_prime_decm n k k s s z (i + 3 * n) = loglikelihood_prime_ecm n k s sol (i + n).
Proof.
  intros B HD Hi. rewrite prime_ecm_x, prime_ecm_y by exact Hi. unfold loglikelihood_prime_decm.
  rewrite (by_block0 n i Hi), (by_block1 n i Hi), (by_block2 n i Hi), (by_block3 n i Hi). cbv zeta.
  assert (G : forall q a S, (if Req_EM_T q 0 then - S else q / a - S) = q / a - S).
  { intros q a S. destruct (Req_EM_T q 0) as [->|]; [unfold Rdiv; ring|reflexivity]. }
  rewrite !G. clear G. pose proof (proj1 HD i Hi) as [Xi _].
  destruct (B i Hi) as (E0 & E1 & E2 & E3).
  destruct (Req_EM_T (z i) 0) as [Hz|_]; [lra|].
  rewrite !loop_add_skip, !Rplus_0_l, E0, E1, E2, E3.
  repeat split; f_equal; apply rsum_ext; intros j Hj;
    (destruct (Nat.eqb_spec i j) as [|Hne]; [ring|]); destruct (B j Hj) as (F0 & F1 & F2 & F3);
    rewrite ?F0, ?F1, ?F2, ?F3; pairs HD i j; field; repeat split; lra.
Qed.

Lemma iterative_decm_both n k s sol z i : both2 n sol z -> ecm_dom n sol -> (i < n)%nat -> (2 <= n)%nat ->
  iterative_decm n k k s s z i = Some (iterative_ecm n k s sol i) /\
  iterative_decm n k k s s z (i + n) = Some (iterative_ecm n k s sol i) /\
  iterative_decm n k k s s z (i + 2 * n) = Some (iterative_ecm n k s sol (i + n)) /\
  iterative_decm n k k s s z (i + 3 * n) = Some (iterative_ecm n k s sol (i + n)).
Proof.
  intros B HD Hi Hn. unfold iterative_decm, iterative_ecm.
  rewrite (by_block0 n i Hi), (by_block1 n i Hi), (by_block2 n i Hi), (by_block3 n i Hi).
  rewrite (proj2 (Nat.ltb_lt i n) Hi), ltb_plus_n, plus_n_minus. cbv zeta. rewrite !loop_add_skip, !Rplus_0_l.
  match goal with |- context [Req_EM_T (rsum n ?F) 0] => set (fx := F) end.
  match goal with |- context [k i / rsum n fx] => idtac end.
  match goal with |- context [s i / rsum n ?F] => set (fy := F) end.
  assert (Px : 0 < rsum n fx).
  { apply (rsum_skip_pos n i); [exact Hn|exact Hi|]. intros j Hj Hne. pairs HD i j.
    apply Rdiv_lt_0_compat; [|lra]. apply Rmult_lt_0_compat; lra. }
  assert (Py : 0 < rsum n fy).
  { apply (rsum_skip_pos n i); [exact Hn|exact Hi|]. intros j Hj Hne. pairs HD i j.
    apply Rdiv_lt_0_compat; apply Rmult_lt_0_compat; lra. }
  assert (G : forall q S, 0 < S -> (if Req_EM_T q 0 then Some 0 else sdiv q S) = Some (if Req_EM_T S 0 then 0 else q / S)).
  { intros q S HS. unfold sdiv. destruct (Req_EM_T S 0); [lra|]. destruct (Req_EM_T q 0) as [->|]; [|reflexivity].
    f_equal. unfold Rdiv. ring. }
  rewrite <- !G by assumption.
  destruct (B i Hi) as (E0 & E1 & E2 & E3). rewrite E0, E1, E2, E3.
  repeat split; (match goal with |- (if ?c then _ else sdiv _ ?a) = (if ?c then _ else sdiv _ ?b) => replace a with b; [reflexivity|] end);
    apply rsum_ext; intros j Hj; (unfold fx || unfold fy);
    (destruct (Nat.eqb_spec i j) as [|Hne]; [ring|]); destruct (B j Hj) as (F0 & F1 & F2 & F3);
    rewrite ?F0, ?F1, ?F2, ?F3; pairs HD i j; try (field; repeat split; lra).
Qed.

Lemma solution_decm_both n k s sol z : ecm_dom n sol ->
  (forall i, (i < n)%nat -> expected_ecm n sol i = k i /\ expected_ecm n sol (i + n) = s i) ->
  decm_dom n z -> decm_supp n k k s s z ->
  (forall r, (r < 4 * n)%nat -> expected_decm n z r = decm_constraint n k k s s r) ->
  forall i j w, (i < n)%nat -> (j < n)%nat -> i <> j ->
  q_enh (z i * z (j + n)%nat) (z (i + 2 * n)%nat * z (j + 3 * n)%nat) w =
  q_enh (sol i * sol j) (sol (i + n)%nat * sol (j + n)%nat) w.
Proof.
  intros HD Hs Hz Hsz Hez i j w Hi Hj Hij.
  set (x := fun r => by_block n r (fun i => sol i) (fun i => sol i) (fun i => sol (i + n)%nat) (fun i => sol (i + n)%nat)).
  assert (B : both2 n sol x).
  { intros l Hl. unfold x. rewrite (by_block0 n l Hl), (by_block1 n l Hl), (by_block2 n l Hl), (by_block3 n l Hl).
    repeat split. }
  assert (Dx : decm_dom n x).
  { split.
    - apply coord4; intros l Hl; destruct (B l Hl) as (E0 & E1 & E2 & E3); destruct (proj1 HD l Hl);
        rewrite ?E0, ?E1, ?E2, ?E3; lra.
    - intros a b Ha Hb Hab. destruct (B a Ha) as (_ & _ & -> & _). destruct (B b Hb) as (_ & _ & _ & ->).
      apply (proj2 HD); assumption. }
  assert (Sx : decm_supp n k k s s x).
  { intros l Hl. destruct (B l Hl) as (-> & -> & -> & ->). destruct (proj1 HD l Hl). repeat split; auto. }
  assert (Ex : forall r, (r < 4 * n)%nat -> expected_decm n x r = decm_constraint n k k s s r).
  { apply coord4; intros l Hl; destruct (expected_decm_both n sol x l B HD Hl) as (E0 & E1 & E2 & E3);
      destruct (Hs l Hl) as [K S]; rewrite ?E0, ?E1, ?E2, ?E3, ?K, ?S; unfold decm_constraint.
    - rewrite (proj2 (Nat.ltb_lt l n) Hl). reflexivity.
    - rewrite ltb_plus_n, (proj2 (Nat.ltb_lt (l + n) (2 * n))), plus_n_minus by lia. reflexivity.
    - rewrite (proj2 (Nat.ltb_ge (l + 2 * n) n)), ltb_plus_n, (proj2 (Nat.ltb_lt (l + 2 * n) (3 * n))), plus_n_minus by lia.
      reflexivity.
    - rewrite (proj2 (Nat.ltb_ge (l + 3 * n) n)), (proj2 (Nat.ltb_ge (l + 3 * n) (2 * n))), ltb_plus_n, plus_n_minus by lia.
      reflexivity. }
  rewrite (solution_decm_unique n k k s s x z) by assumption.
  destruct (B i Hi) as (-> & _ & -> & _). destruct (B j Hj) as (_ & -> & _ & ->). reflexivity.
Qed.

Lemma both2_exp n x z : both2 n x z -> both2 n (fun i => exp (- x i)) (fun i => exp (- z i)).
Proof. intros B i Hi. destruct (B i Hi) as (-> & -> & -> & ->). repeat split. Qed.
Lemma ecm_exp_dom_exp n sol : ecm_exp_dom n sol -> ecm_dom n (fun r => exp (- sol r)).
Proof.
  intros HD. split; [intros; split; apply exp_pos|]. intros i j Hi Hj Hij. rewrite <- exp_plus.
  rewrite <- exp_0. apply exp_increasing. pose proof (HD i j Hi Hj Hij). lra.
Qed.
Lemma both2_exp_dom n sol z : both2 n sol z -> ecm_exp_dom n sol -> decm_exp_dom n z.
Proof.
  intros B HD i j Hi Hj Hij. destruct (B i Hi) as (_ & _ & -> & _). destruct (B j Hj) as (_ & _ & _ & ->).
  apply HD; assumption.
Qed.

Lemma expected_decm_exp_both n sol z i : both2 n sol z -> ecm_exp_dom n sol -> (i < n)%nat ->
  expected_decm_exp n z i = expected_ecm n (fun r => exp (- sol r)) i /\
  expected_decm_exp n z (i + n) = expected_ecm n (fun r => exp (- sol r)) i /\
  expected_decm_exp n z (i + 2 * n) = expected_ecm n (fun r => exp (- sol r)) (i + n) /\
  expected_decm_exp n z (i + 3 * n) = expected_ecm n (fun r => exp (- sol r)) (i + n).
Proof.
  intros B HD Hi. rewrite !expected_decm_exp_eq. apply expected_decm_both;
    [apply both2_exp; exact B|apply ecm_exp_dom_exp; exact HD|exact Hi].
Qed.
Lemma loglik_decm_exp_both n k s sol z : both2 n sol z -> ecm_exp_dom n sol ->
  loglikelihood_decm_exp n k k s s z = 2 * loglikelihood_ecm_exp n k s sol.
Proof.
  intros B HD. rewrite loglik_decm_exp_eq, loglik_ecm_exp_eq by (try apply (both2_exp_dom n sol); assumption).
  apply loglik_decm_both; [apply both2_exp; exact B|apply ecm_exp_dom_exp; exact HD].
Qed.
Lemma prime_decm_exp_both n k s sol z i : both2 n sol z -> ecm_exp_dom n sol -> (i < n)%nat ->
  loglikelihood_prime_decm_exp n k k s s z i = loglikelihood_prime_ecm_exp n k s sol i /\
  loglikelihood_prime_decm_exp n k k s s z (i + n) = loglikelihood_prime_ecm_exp n k s sol i /\
  loglikelihood_prime_decm_exp n k k s s z (i + 2 * n) = loglikelihood_prime_ecm_exp n k s sol (i + n) /\
  loglikelihood_prime_decm_exp n k k s s z (i + 3 * n) = loglikelihood_prime_ecm_exp n k s sol (i + n).
Proof.
  intros B HD Hi. pose proof (both2_exp_dom n sol z B HD).
  rewrite !(prime_decm_exp_eq n k k s s z), !prime_ecm_exp_eq by (assumption || lia).
  destruct (prime_decm_both n k s _ _ i (both2_exp n sol z B) (ecm_exp_dom_exp n sol HD) Hi) as (-> & -> & -> & ->).
  destruct (B i Hi) as (-> & -> & -> & ->). repeat split.
Qed.

(** * CReMa *)
Lemma in_both_ways es i j w : In (i, j, w) (both_ways es) <-> In (i, j, w) es \/ In (j, i, w) es.
Proof.
  unfold both_ways. rewrite in_flat_map. split.
  - intros [[[a b] v] [Hin [E|[E|[]]]]]; injection E as -> -> ->; auto.
  - intros [H|H]; eexists; (split; [exact H|]); simpl; auto.
Qed.
Lemma both_ways_below n es : pairs_below n es -> pairs_below n (both_ways es).
Proof. intros H i j w Hin. apply in_both_ways in Hin. destruct Hin as [Hin|Hin]; apply H in Hin; tauto. Qed.
Lemma both_ways_dom n es beta z : pairs_below n es -> both n beta z -> crema_dom es beta -> crema_dir_dom n (both_ways es) z.
Proof.
  intros HB B HD i j w Hin. pose proof (both_ways_below n es HB i j w Hin) as [Hi Hj].
  rewrite (proj1 (B i Hi)), (proj2 (B j Hj)). apply in_both_ways in Hin.
  destruct Hin as [Hin|Hin]; apply HD in Hin; lra.
Qed.
Lemma esum_both_ways es F : esum (both_ways es) F = esum es (fun i j w => F i j w + F j i w).
Proof.
  unfold esum, both_ways. rewrite lsum_flat_map. apply lsum_ext. intros [[i j] w] _. cbn. ring.
Qed.
Lemma cE_both_ways n es beta z k : pairs_below n es -> both n beta z -> crema_dom es beta -> (k < n)%nat ->
  cE (sh n (both_ways es)) z k = cE es beta k /\ cE (sh n (both_ways es)) z (k + n) = cE es beta k.
Proof.
  intros HB B HD Hk. unfold cE.
  assert (G : forall F, esum (sh n (both_ways es)) F = esum es (fun i j w => F i (j + n)%nat w + F j (i + n)%nat w)).
  { intros F. rewrite <- (esum_both_ways es (fun i j w => F i (j + n)%nat w)). unfold esum, sh. rewrite lsum_map. reflexivity. }
  rewrite !G. split; apply esum_ext; intros i j w Hin; destruct (HB i j w Hin) as [Hi Hj];
    rewrite ?(proj1 (B i Hi)), ?(proj2 (B i Hi)), ?(proj1 (B j Hj)), ?(proj2 (B j Hj)); rewrite (Rplus_comm (beta j)); unfold hit.
  - rewrite (proj2 (Nat.eqb_neq (j + n) k)), (proj2 (Nat.eqb_neq (i + n) k)) by lia. ring.
  - rewrite (proj2 (Nat.eqb_neq i (k + n))), (proj2 (Nat.eqb_neq j (k + n))) by lia.
    assert (Q : forall a, Nat.eqb (a + n) (k + n) = Nat.eqb a k)
      by (intros a; destruct (Nat.eqb_spec a k), (Nat.eqb_spec (a + n) (k + n)); lia || reflexivity).
    rewrite !Q. ring.
Qed.

Lemma expected_crema_both n es beta z : pairs_below n es -> both n beta z -> crema_dom es beta ->
  exists E EO EI, expected_strength_crema_undirected es beta = Some E /\
    expected_out_strength_crema_directed n (both_ways es) z = Some EO /\
    expected_in_strength_crema_directed n (both_ways es) z = Some EI /\
    forall i, (i < n)%nat -> EO i = E i /\ EI i = E i.
Proof.
  intros HB B HD. destruct (expected_crema_some es beta HD) as (E & HE & OE).
  pose proof (both_ways_dom n es beta z HB B HD) as HZ.
  destruct (expected_out_crema_dir n (both_ways es) z HZ) as (EO & HO & OO).
  destruct (expected_in_crema_dir n (both_ways es) (both_ways_below n es HB) z HZ) as (EI & HI & OI).
  exists E, EO, EI. repeat (split; [assumption|]). intros i Hi. rewrite OO, OI, OE by exact Hi.
  apply cE_both_ways; assumption.
Qed.

Lemma loglik_crema_both n s nz es beta z : pairs_below n es -> both n beta z -> nonzero_list n s nz ->
  loglikelihood_crema_directed n s s (both_ways es) nz nz z = 2 * loglikelihood_crema_undirected n s es beta.
Proof.
  intros HB B Hnz. rewrite (loglik_crema_dir_eq n s s (both_ways es) nz nz Hnz Hnz), !loglik_crema_nf. unfold cL.
  rewrite rsum_cat.
  rewrite (rsum_ext n (fun i => cat n s s i * z i) (fun i => s i * beta i)).
  2: { intros i Hi. unfold cat. rewrite (proj2 (Nat.ltb_lt i n) Hi), (proj1 (B i Hi)). reflexivity. }
  rewrite (rsum_ext n (fun i => cat n s s (i + n)%nat * z (i + n)%nat) (fun i => s i * beta i)).
  2: { intros i Hi. unfold cat. rewrite ltb_plus_n, plus_n_minus, (proj2 (B i Hi)). reflexivity. }
  assert (G : esum (sh n (both_ways es)) (fun i j w => w * ln (z i + z j)) = 2 * esum es (fun i j w => w * ln (beta i + beta j))).
  { rewrite <- esum_scal. transitivity (esum (both_ways es) (fun i j w => w * ln (z i + z (j + n)%nat))).
    - unfold esum, sh. rewrite lsum_map. reflexivity.
    - rewrite esum_both_ways. apply esum_ext. intros i j w Hin. destruct (HB i j w Hin) as [Hi Hj].
      rewrite (proj1 (B i Hi)), (proj2 (B i Hi)), (proj1 (B j Hj)), (proj2 (B j Hj)), (Rplus_comm (beta j)). ring. }
  rewrite G. ring.
Qed.

Lemma solution_crema_both n s es beta z : pairs_below n es -> nonneg_weights es -> crema_dom es beta ->
  (exists E, expected_strength_crema_undirected es beta = Some E /\ forall i, (i < n)%nat -> E i = s i) ->
  crema_dir_dom n (both_ways es) z ->
  (exists EO EI, expected_out_strength_crema_directed n (both_ways es) z = Some EO /\
     expected_in_strength_crema_directed n (both_ways es) z = Some EI /\ forall i, (i < n)%nat -> EO i = s i /\ EI i = s i) ->
  forall i j w, In (i, j, w) es -> w <> 0 ->
    / (z i + z (j + n)%nat) = / (beta i + beta j) /\ / (z j + z (i + n)%nat) = / (beta i + beta j).
Proof.
  intros HB HW HD (E & HE & OE) HZ HSZ i j w Hin Hw.
  set (x := fun r => if Nat.ltb r n then beta r else beta (r - n)%nat).
  assert (B : both n beta x).
  { intros l Hl. unfold x. rewrite (proj2 (Nat.ltb_lt l n) Hl), ltb_plus_n, plus_n_minus. split; reflexivity. }
  destruct (expected_crema_both n es beta x HB B HD) as (E' & EO & EI & H1 & H2 & H3 & H4).
  rewrite HE in H1. injection H1 as <-.
  assert (U : forall a b, In (a, b, w) (both_ways es) -> / (z a + z (b + n)%nat) = / (x a + x (b + n)%nat)).
  { intros a b Hab. apply (solution_crema_dir_unique n s s (both_ways es) x z) with (w := w); try assumption.
    - apply both_ways_below; exact HB.
    - intros a' b' w' Hin'. apply in_both_ways in Hin'. destruct Hin' as [H|H]; apply HW in H; exact H.
    - apply (both_ways_dom n es beta); assumption.
    - exists EO, EI. repeat (split; [assumption|]). intros l Hl. rewrite <- (OE l Hl). apply H4; exact Hl. }
  destruct (HB i j w Hin) as [Hi Hj].
  rewrite (U i j), (U j i) by (apply in_both_ways; auto).
  rewrite (proj1 (B i Hi)), (proj2 (B i Hi)), (proj1 (B j Hj)), (proj2 (B j Hj)), (Rplus_comm (beta j)). split; reflexivity.
Qed.
