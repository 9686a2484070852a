(** What the chosen functions compute: directed models. *)
From Coq Require Import Reals List Arith Bool String Lra Lia.
From Coquelicot Require Import Coquelicot.
From Verif Require Import Base SpecDeriv SpecGraph SpecEnsemble SpecWeighted SpecDirected SpecCReMa
  ModelCM ModelECM ModelDCM ModelDECM ModelCReMa ModelLinsearch ModelSolver ModelIEEE ModelDispatch SpecDispatch.
From Verif Require Import ProofsDCM ProofsMainDCM ProofsFixDCM ProofsDECM ProofsMainDECM ProofsFixDECM
  ProofsCReMa ProofsMainCReMa ProofsSparseCReMa ProofsDirCReMa ProofsDirSparseCReMa WitnessCReMa ProofsDispatch ProofsIEEE ProofsEntries ProofsDispatchU.
Import ListNotations.
Local Open Scope R_scope.

(** ** DBCM *)
Lemma dcm_descends reg m n ko ki nzo nzi c x :
  In m descent_methods -> index_list n nzo -> index_list n nzi -> dcm_dom n nzo nzi x ->
  accepted d_dispatch "dcm" m reg (solve_descends (A5d n ko ki nzo nzi c) (loglikelihood_dcm n ko ki nzo nzi c) (2 * n) x).
Proof.
  intros Hm Ho Hi Hx. cbn in Hm. pick2 Hm; (split; [exact (f_equal scalar (neg_entry _ _ _ _ (e_ll_dcm n ko ki nzo nzi c x Hx)))|]); (split; [exact (f_equal scalar (e_ll_dcm n ko ki nzo nzi c x Hx))|]); intros h Hh;
    exists (- loglikelihood_prime_dcm n ko ki nzo nzi c x h); (split; [exact (f_equal (fun o => at1 o h) (neg_entry _ _ _ _ (e_ll_prime_dcm n ko ki nzo nzi c x (dcm_divisors_ok n nzo nzi x Hx))))|]);
    apply partial_opp, gradient_dcm; assumption.
Qed.
Lemma dcm_exp_descends reg m n ko ki nzo nzi c x :
  In m descent_methods -> index_list n nzo -> index_list n nzi ->
  accepted d_dispatch "dcm_exp" m reg (solve_descends (A5d n ko ki nzo nzi c) (loglikelihood_dcm_exp n ko ki nzo nzi c) (2 * n) x).
Proof.
  intros Hm Ho Hi. cbn in Hm. pick2 Hm; (split; [reflexivity|]); (split; [reflexivity|]); intros h Hh;
    exists (- loglikelihood_prime_dcm_exp n ko ki nzo nzi c x h); (split; [reflexivity|]);
    apply partial_opp, gradient_dcm_exp; assumption.
Qed.
Lemma dcm_jacobian reg n ko ki nzo nzi c x :
  index_list n nzo -> index_list n nzi -> dcm_dom n nzo nzi x ->
  accepted d_dispatch "dcm" "newton" reg (solve_jacobian (A5d n ko ki nzo nzi c) (2 * n) x).
Proof.
  intros Ho Hi Hx. pick. intros i h Hii Hh. exists (- loglikelihood_hessian_dcm n ko ki nzo nzi c x i h). split; [exact (f_equal (fun o => at2 o i h) (neg_entry _ _ _ _ (e_ll_hess_dcm n ko ki nzo nzi c x (dcm_divisors_ok n nzo nzi x Hx))))|].
  apply (partial_opartial_near (fun z => - loglikelihood_prime_dcm n ko ki nzo nzi c z i) _ _ _ _ _ (dcm_divisors_open n nzo nzi x h (dcm_divisors_ok n nzo nzi x Hx))); [intros z E; exact (f_equal (fun o => at1 o i) (neg_entry _ _ _ _ (e_ll_prime_dcm n ko ki nzo nzi c _ E)))|].
  apply (partial_opp (fun z => loglikelihood_prime_dcm n ko ki nzo nzi c z i)), hessian_dcm_correct; assumption.
Qed.
Lemma dcm_exp_jacobian reg n ko ki nzo nzi c x :
  index_list n nzo -> index_list n nzi ->
  accepted d_dispatch "dcm_exp" "newton" reg (solve_jacobian (A5d n ko ki nzo nzi c) (2 * n) x).
Proof.
  intros Ho Hi. pick. intros i h Hii Hh. exists (- loglikelihood_hessian_dcm_exp n nzo nzi c x i h). split; [reflexivity|].
  apply (partial_opartial (fun z => - loglikelihood_prime_dcm_exp n ko ki nzo nzi c z i)); [reflexivity|].
  apply (partial_opp (fun z => loglikelihood_prime_dcm_exp n ko ki nzo nzi c z i)), hessian_dcm_exp_correct; assumption.
Qed.
Lemma dcm_exp_jacobian_diag reg n ko ki nzo nzi c x :
  index_list n nzo -> index_list n nzi ->
  accepted d_dispatch "dcm_exp" "quasinewton" reg (solve_jacobian_diag (A5d n ko ki nzo nzi c) (2 * n) x).
Proof.
  intros Ho Hi. pick. intros i Hii. exists (- loglikelihood_hessian_diag_dcm_exp n nzo nzi c x i). split; [reflexivity|].
  apply (partial_opartial (fun z => - loglikelihood_prime_dcm_exp n ko ki nzo nzi c z i)); [reflexivity|].
  apply (partial_opp (fun z => loglikelihood_prime_dcm_exp n ko ki nzo nzi c z i)), hessian_diag_dcm_exp_correct; assumption.
Qed.
Lemma nonzero_index n k l : nonzero_list n k l -> index_list n l.
Proof. intros (N & H). split; [exact N|]. intros i Hi. apply H, Hi. Qed.
Lemma at1_fin (v : fval) (r : R) : match v with Fin q => Some q | _ => None end = Some r <-> v = Fin r.
Proof.
  destruct v; split; try discriminate.
  - now intros [= ->].
  - now intros [= ->].
Qed.
Lemma dcm_full_nonneg n nzo nzi x : dcm_full n nzo nzi x -> forall i, (i < n)%nat -> 0 <= x i /\ 0 <= x (i + n)%nat.
Proof.
  intros ((D1 & D2) & Z1 & Z2) i Hi. split.
  - destruct (in_dec Nat.eq_dec i nzo) as [H|H]; [apply Rlt_le, D1, H|]. rewrite (Z1 i Hi H). lra.
  - destruct (in_dec Nat.eq_dec i nzi) as [H|H]; [apply Rlt_le, D2, H|]. rewrite (Z2 i Hi H). lra.
Qed.
Lemma dcm_fixed reg n ko ki nzo nzi c x r :
  nonzero_list n ko nzo -> nonzero_list n ki nzi -> dcm_full n nzo nzi x -> (r < 2 * n)%nat ->
  (forall q, (q < n)%nat -> 0 < c q) -> (forall q, (q < n)%nat -> 0 <= ko q /\ 0 <= ki q) ->
  (In r nzo \/ exists j, In j nzi /\ r = (j + n)%nat) ->
  accepted d_dispatch "dcm" "fixed-point" reg (solve_fixes (A5d n ko ki nzo nzi c) (loglikelihood_dcm n ko ki nzo nzi c) x r).
Proof.
  intros Ho Hi Hx Hr Hc Hk Hin. pick. split; [|exact (f_equal scalar (neg_entry _ _ _ _ (e_ll_dcm n ko ki nzo nzi c x (proj1 Hx))))].
  exists (- loglikelihood_prime_dcm n ko ki nzo nzi c x r).
  split; [apply partial_opp, gradient_dcm; try assumption; [eapply nonzero_index; eassumption..|apply Hx]|].
  rewrite <- opp_zero_iff, <- (fixed_point_dcm_iff n ko ki nzo nzi c Ho Hi x r Hx Hr Hc Hk Hin).
  cbn [d_fun]. rewrite (e_iterative_dcm n ko ki nzo nzi c x) by (apply dcm_pairs_ok, (dcm_full_nonneg n nzo nzi); exact Hx). exact (at1_fin (iterative_dcm n ko ki c x r) (x r)).
Qed.
Lemma dcm_exp_fixed reg n ko ki nzo nzi c x r :
  nonzero_list n ko nzo -> nonzero_list n ki nzi -> (r < 2 * n)%nat ->
  (forall q, (q < n)%nat -> 1 <= c q) -> (forall q, (q < n)%nat -> 0 < ko q /\ 0 < ki q) ->
  accepted d_dispatch "dcm_exp" "fixed-point" reg (solve_fixes (A5d n ko ki nzo nzi c) (loglikelihood_dcm_exp n ko ki nzo nzi c) x r).
Proof.
  intros Ho Hi Hr Hc Hk. pick. split; [|reflexivity].
  exists (- loglikelihood_prime_dcm_exp n ko ki nzo nzi c x r).
  split; [apply partial_opp, gradient_dcm_exp; try assumption; eapply nonzero_index; eassumption|].
  assert (Io : forall i, (i < n)%nat -> In i nzo) by (intros i L; apply (proj2 Ho); specialize (Hk i L); split; [exact L|lra]).
  assert (Ii : forall i, (i < n)%nat -> In i nzi) by (intros i L; apply (proj2 Hi); specialize (Hk i L); split; [exact L|lra]).
  rewrite <- opp_zero_iff, <- (fixed_point_dcm_exp_iff n ko ki nzo nzi c Ho Hi (fun r => Some (x r)) x r).
  - exact (at1_fin (iterative_dcm_exp n ko ki c (fun r => Some (x r)) r) (x r)).
  - split; [reflexivity|]. split; [reflexivity|]. split; intros i L N; elim N; auto.
  - exact Hr.
  - exact Hc.
  - intros q L. specialize (Hk q L). lra.
  - destruct (lt_dec r n) as [L|L]; [left; auto|right]. exists (r - n)%nat. split; [apply Ii; lia|lia].
Qed.

(** ** DECM *)
Lemma decm_descends reg m n ko ki so si x :
  In m descent_methods -> decm_dom n x -> decm_supp n ko ki so si x ->
  accepted d_dispatch "decm" m reg (solve_descends (A4 n ko ki so si) (loglikelihood_decm n ko ki so si) (4 * n) x).
Proof.
  intros Hm Hx Hs. cbn in Hm. pick2 Hm; (split; [exact (f_equal scalar (neg_entry _ _ _ _ (e_ll_decm n ko ki so si x Hx Hs)))|]); (split; [exact (f_equal scalar (e_ll_decm n ko ki so si x Hx Hs))|]); intros h Hh;
    exists (- loglikelihood_prime_decm n ko ki so si x h); (split; [exact (f_equal (fun o => at1 o h) (neg_entry _ _ _ _ (e_ll_prime_decm n ko ki so si x (decm_divisors_ok n ko ki so si x Hx Hs))))|]);
    apply partial_opp, gradient_decm; assumption.
Qed.
Lemma decm_exp_descends reg m n ko ki so si x :
  In m descent_methods -> decm_exp_dom n x ->
  accepted d_dispatch "decm_exp" m reg (solve_descends (A4 n ko ki so si) (loglikelihood_decm_exp n ko ki so si) (4 * n) x).
Proof.
  intros Hm Hx. cbn in Hm. pick2 Hm; (split; [exact (f_equal scalar (neg_entry _ _ _ _ (e_ll_decm_exp n ko ki so si x Hx)))|]); (split; [exact (f_equal scalar (e_ll_decm_exp n ko ki so si x Hx))|]); intros h Hh;
    exists (- loglikelihood_prime_decm_exp n ko ki so si x h); (split; [apply (e_neg_prime_decm_exp n ko ki so si x h); [apply decm_exp_divisors_ok|]; assumption|]);
    apply partial_opp, gradient_decm_exp; assumption.
Qed.
Lemma decm_jacobian reg n ko ki so si x :
  decm_dom n x -> decm_supp n ko ki so si x ->
  accepted d_dispatch "decm" "newton" reg (solve_jacobian (A4 n ko ki so si) (4 * n) x).
Proof.
  intros Hx Hs. pick. intros i h Hii Hh. exists (- loglikelihood_hessian_decm n ko ki so si x i h). split; [exact (f_equal (fun o => at2 o i h) (neg_entry _ _ _ _ (e_ll_hess_decm n ko ki so si x (decm_divisors_ok n ko ki so si x Hx Hs))))|].
  apply (partial_opartial_near (fun z => - loglikelihood_prime_decm n ko ki so si z i) _ _ _ _ _ (decm_divisors_open n ko ki so si x h (decm_divisors_ok n ko ki so si x Hx Hs))); [intros z E; exact (f_equal (fun o => at1 o i) (neg_entry _ _ _ _ (e_ll_prime_decm n ko ki so si _ E)))|].
  apply (partial_opp (fun z => loglikelihood_prime_decm n ko ki so si z i)), hessian_decm_correct; assumption.
Qed.
Lemma decm_exp_jacobian reg n ko ki so si x :
  decm_exp_dom n x ->
  accepted d_dispatch "decm_exp" "newton" reg (solve_jacobian (A4 n ko ki so si) (4 * n) x).
Proof.
  intros Hx. pick. intros i h Hii Hh. exists (- loglikelihood_hessian_decm_exp n x i h). split; [exact (f_equal (fun o => at2 o i h) (neg_entry _ _ _ _ (e_ll_hess_decm_exp n ko ki so si x (decm_exp_divisors_ok n x Hx))))|].
  apply (partial_opartial_near (fun z => - loglikelihood_prime_decm_exp n ko ki so si z i) _ _ _ _ _ (decm_exp_divisors_open n x h (decm_exp_divisors_ok n x Hx))); [intros z E; exact (e_neg_prime_decm_exp n ko ki so si z i E Hii)|].
  apply (partial_opp (fun z => loglikelihood_prime_decm_exp n ko ki so si z i)), hessian_decm_exp_correct; assumption.
Qed.
Lemma decm_exp_jacobian_diag reg n ko ki so si x :
  decm_exp_dom n x ->
  accepted d_dispatch "decm_exp" "quasinewton" reg (solve_jacobian_diag (A4 n ko ki so si) (4 * n) x).
Proof.
  intros Hx. pick. intros i Hii. exists (- loglikelihood_hessian_diag_decm_exp n x i). split; [exact (f_equal (fun o => at1 o i) (neg_entry _ _ _ _ (e_ll_hess_diag_decm_exp n ko ki so si x (decm_exp_divisors_ok n x Hx))))|].
  apply (partial_opartial_near (fun z => - loglikelihood_prime_decm_exp n ko ki so si z i) _ _ _ _ _ (decm_exp_divisors_open n x i (decm_exp_divisors_ok n x Hx))); [intros z E; exact (e_neg_prime_decm_exp n ko ki so si z i E Hii)|].
  apply (partial_opp (fun z => loglikelihood_prime_decm_exp n ko ki so si z i)), hessian_diag_decm_exp_correct; assumption.
Qed.

Lemma evec_total {A} (toF : A -> fval) m v :
  (forall r, (r < m)%nat -> v r <> None) ->
  evec toF m v = Some (VVec (fun r => match v r with Some a => toF a | None => NaN end)).
Proof.
  intro H. unfold evec.
  replace (forallb (fun r => match v r with Some _ => true | None => false end) (seq 0 m)) with true; [reflexivity|].
  symmetry. apply forallb_forall. intros r Hr. apply in_seq in Hr. specialize (H r ltac:(lia)). now destruct (v r).
Qed.
Lemma g_pos ao bo ai bi : 0 < ao -> 0 < bo -> 0 < ai -> 0 < bi -> bo * bi < 1 ->
  0 < g_ao ao bo ai bi /\ 0 < g_ai ao bo ai bi /\ 0 < g_bo ao bo ai bi /\ 0 < g_bi ao bo ai bi.
Proof.
  intros A B C D E. assert (P1 : 0 < bo * bi) by now apply Rmult_lt_0_compat.
  assert (P2 : 0 < ao * ai) by now apply Rmult_lt_0_compat.
  assert (P3 : 0 < ao * ai * (bo * bi)) by now apply Rmult_lt_0_compat.
  assert (P4 : 0 < 1 - bo * bi + ao * ai * (bo * bi)) by lra.
  assert (P5 : 0 < (1 - bo * bi) * (1 - bo * bi + ao * ai * (bo * bi))) by (apply Rmult_lt_0_compat; lra).
  unfold g_ao, g_ai, g_bo, g_bi. repeat split.
  - apply Rdiv_lt_0_compat; [now apply Rmult_lt_0_compat|exact P4].
  - apply Rdiv_lt_0_compat; [now apply Rmult_lt_0_compat|exact P4].
  - replace (bi / (1 - bo * bi) + (ao * ai - 1) * bi / (1 - bo * bi + ao * ai * (bo * bi)))
      with (ao * ai * bi / ((1 - bo * bi) * (1 - bo * bi + ao * ai * (bo * bi)))) by (field; lra).
    apply Rdiv_lt_0_compat; [now apply Rmult_lt_0_compat|exact P5].
  - replace (bo / (1 - bo * bi) + (ao * ai - 1) * bo / (1 - bo * bi + ao * ai * (bo * bi)))
      with (ao * ai * bo / ((1 - bo * bi) * (1 - bo * bi + ao * ai * (bo * bi)))) by (field; lra).
    apply Rdiv_lt_0_compat; [now apply Rmult_lt_0_compat|exact P5].
Qed.
Lemma other_node n i : (2 <= n)%nat -> (i < n)%nat -> exists j, (j < n)%nat /\ i <> j.
Proof. intros. destruct (Nat.eq_dec i 0) as [->|]; [exists 1%nat|exists 0%nat]; lia. Qed.
Lemma off_row_pos n i (f : nat -> R) :
  (2 <= n)%nat -> (i < n)%nat -> (forall j, (j < n)%nat -> i <> j -> 0 < f j) ->
  0 < rsum n (fun j => if Nat.eqb i j then 0 else f j).
Proof.
  intros Hn Hi H. destruct (other_node n i Hn Hi) as (j & Hj & Hij).
  apply (rsum_pos n _ j); [|exact Hj|].
  - intros q Hq. destruct (Nat.eqb_spec i q); [lra|]. left. auto.
  - destruct (Nat.eqb_spec i j); [contradiction|]. auto.
Qed.
Lemma iterative_decm_defined n ko ki so si x r :
  (2 <= n)%nat -> decm_dom n x -> decm_pos n x -> (r < 4 * n)%nat -> iterative_decm n ko ki so si x r <> None.
Proof.
  intros Hn Hd Hp Hr.
  destruct (Req_EM_T (decm_constraint n ko ki so si r) 0) as [E|E].
  { rewrite iterative_decm_zero by assumption. discriminate. }
  assert (G : forall a b, (a < n)%nat -> (b < n)%nat -> a <> b ->
    0 < g_ao (x a) (x (a + 2 * n)%nat) (x (b + n)%nat) (x (b + 3 * n)%nat) /\ 0 < g_ai (x a) (x (a + 2 * n)%nat) (x (b + n)%nat) (x (b + 3 * n)%nat) /\
    0 < g_bo (x a) (x (a + 2 * n)%nat) (x (b + n)%nat) (x (b + 3 * n)%nat) /\ 0 < g_bi (x a) (x (a + 2 * n)%nat) (x (b + n)%nat) (x (b + 3 * n)%nat)).
  { intros a b Ha Hb Hab. apply g_pos; try (apply Hp; lia). apply Hd; assumption. }
  revert r Hr E. apply (coord4 n (fun r => decm_constraint n ko ki so si r <> 0 -> iterative_decm n ko ki so si x r <> None)); intros i Hi Hc.
  - rewrite constraint0 in Hc by exact Hi. rewrite iterative_decm_0 by assumption. unfold sdiv.
    destruct (Req_EM_T _ 0) as [E|]; [|discriminate]. exfalso.
    assert (0 < Row_out n g_ao i x) by (apply off_row_pos; auto; intros; apply G; auto). lra.
  - rewrite constraint1 in Hc by exact Hi. rewrite iterative_decm_1 by assumption. unfold sdiv.
    destruct (Req_EM_T _ 0) as [E|]; [|discriminate]. exfalso.
    assert (0 < Row_in n g_ai i x) by (apply off_row_pos; auto; intros; apply G; auto). lra.
  - rewrite constraint2 in Hc by exact Hi. rewrite iterative_decm_2 by assumption. unfold sdiv.
    destruct (Req_EM_T _ 0) as [E|]; [|discriminate]. exfalso.
    assert (0 < Row_out n g_bo i x) by (apply off_row_pos; auto; intros; apply G; auto). lra.
  - rewrite constraint3 in Hc by exact Hi. rewrite iterative_decm_3 by assumption. unfold sdiv.
    destruct (Req_EM_T _ 0) as [E|]; [|discriminate]. exfalso.
    assert (0 < Row_in n g_bi i x) by (apply off_row_pos; auto; intros; apply G; auto). lra.
Qed.
Lemma decm_fixed reg n ko ki so si x r :
  (2 <= n)%nat -> decm_dom n x -> decm_pos n x -> (r < 4 * n)%nat -> decm_constraint n ko ki so si r <> 0 ->
  accepted d_dispatch "decm" "fixed-point" reg (solve_fixes (A4 n ko ki so si) (loglikelihood_decm n ko ki so si) x r).
Proof.
  intros Hn Hd Hp Hr Hc. pick. assert (HS : decm_supp n ko ki so si x) by (intros i Hi; repeat split; intros _; apply Hp; lia).
  split; [|exact (f_equal scalar (neg_entry _ _ _ _ (e_ll_decm n ko ki so si x Hd HS)))].
  exists (- loglikelihood_prime_decm n ko ki so si x r). split.
  { apply partial_opp, gradient_decm; try assumption. }
  rewrite <- opp_zero_iff, <- (fixed_point_decm_iff n ko ki so si x r Hr (Hp r Hr) Hc).
  cbn [d_fun]. rewrite (e_iterative_decm n ko ki so si x) by (apply decm_pairs_ok; [intros q Hq; apply Rlt_le, Hp, Hq|apply Hd]).
  change (at1 (evec Fin (4 * n) (iterative_decm n ko ki so si x)) r = Some (x r) <-> iterative_decm n ko ki so si x r = Some (x r)).
  rewrite evec_total by (intros q Hq; apply iterative_decm_defined; assumption). cbn [at1].
  pose proof (iterative_decm_defined n ko ki so si x r Hn Hd Hp Hr) as D.
  destruct (iterative_decm n ko ki so si x r); [reflexivity|contradiction].
Qed.
(** The map run for decm_exp has a fixed point where the gradient is not zero. *)
Lemma decm_exp_fixed_refuted reg :
  accepted d_dispatch "decm_exp" "fixed-point" reg (fun D =>
    exists n ko ki so si theta, (2 <= n)%nat /\
      (forall i, (i < n)%nat -> 0 < ko i /\ 0 < ki i /\ 0 < so i /\ 0 < si i) /\ decm_exp_dom n theta /\
      (forall r, (r < 4 * n)%nat -> at1 (run_entry (d_fun D) (A4 n ko ki so si) theta) r = Some (theta r)) /\
      exists r d, (r < 4 * n)%nat /\ partial (fun z => - loglikelihood_decm_exp n ko ki so si z) theta r d /\ d <> 0).
Proof.
  destruct fixed_point_decm_exp_refuted' as (n & ko & ki & so & si & theta & Hn & Hk & Hd & Hf & Hne).
  pick. exists n, ko, ki, so, si, theta. split; [exact Hn|]. split; [exact Hk|]. split; [exact Hd|]. split.
  - intros r Hr.
    cbn [d_fun]. rewrite (e_iterative_decm_exp n ko ki so si theta) by (apply decm_exp_divisors_ok; exact Hd).
    change (at1 (evec (fun v => v) (4 * n) (iterative_decm_exp n ko ki so si theta)) r = Some (theta r)).
    rewrite evec_total by (intros q Hq; rewrite Hf by exact Hq; discriminate). cbn [at1]. now rewrite Hf.
  - assert (E : exists r, (r < 4 * n)%nat /\ loglikelihood_prime_decm_exp n ko ki so si theta r <> 0).
    { clear - Hne. assert (G : forall m, (forall r, (r < m)%nat -> loglikelihood_prime_decm_exp n ko ki so si theta r = 0) \/
         exists r, (r < m)%nat /\ loglikelihood_prime_decm_exp n ko ki so si theta r <> 0).
      { induction m as [|m IH]; [left; intros; lia|]. destruct IH as [IH|(r & L & R)]; [|right; exists r; split; [lia|exact R]].
        destruct (Req_EM_T (loglikelihood_prime_decm_exp n ko ki so si theta m) 0) as [E|E].
        - left. intros r L. destruct (Nat.eq_dec r m) as [->|]; [exact E|apply IH; lia].
        - right. exists m. split; [lia|exact E]. }
      destruct (G (4 * n)%nat) as [A|A]; [contradiction|exact A]. }
    destruct E as (r & Hr & Hz). exists r, (- loglikelihood_prime_decm_exp n ko ki so si theta r).
    split; [exact Hr|]. split; [apply partial_opp, gradient_decm_exp; assumption|]. lra.
Qed.

(** ** CReMa *)
Lemma crema_dir_descends reg m n so si es nzo nzi b :
  In m descent_methods -> nonzero_list n so nzo -> nonzero_list n si nzi -> crema_dir_dom n es b ->
  accepted d_dispatch "crema" m reg
    (solve_descends (A5c n so si (Triples es) nzo nzi) (loglikelihood_crema_directed n so si es nzo nzi) (n + n) b).
Proof.
  intros Hm Ho Hi Hx. destruct (gradient_crema_dir n so si es nzo nzi b Ho Hi Hx) as (F & EF & GF). cbn in Hm.
  pick2 Hm; (split; [exact (f_equal scalar (neg_entry _ _ _ _ (e_ll_crema_directed n so si es nzo nzi b Hx)))|]); (split; [exact (f_equal scalar (e_ll_crema_directed n so si es nzo nzi b Hx))|]); intros h Hh; exists (- F h); (split; [|apply partial_opp, GF]).
  all: change (at1 (obind (ovec (loglikelihood_prime_crema_directed n so si es nzo nzi b)) (fun v => Some (ModelDispatch.vneg v))) h = Some (- F h)).
  all: now rewrite EF.
Qed.
Lemma crema_dir_jacobian reg n so si es nzo nzi b :
  nonzero_list n so nzo -> nonzero_list n si nzi -> pairs_below n es -> simple_arcs es -> crema_dir_dom n es b ->
  accepted d_dispatch "crema" "newton" reg (solve_jacobian (A5c n so si (Triples es) nzo nzi) (n + n) b).
Proof.
  intros Ho Hi Hb Hs Hx. destruct (hessian_crema_dir_correct n so si es nzo nzi b Ho Hi Hb Hs Hx) as (H & EH & GH).
  pick. intros i h Hii Hh. exists (- H i h). split.
  - change (at2 (obind (omat (loglikelihood_hessian_crema_directed n es b)) (fun v => Some (ModelDispatch.vneg v))) i h = Some (- H i h)).
    now rewrite EH.
  - apply (opartial_ext (fun z => match oentry (loglikelihood_prime_crema_directed n so si es nzo nzi z) i with Some r => Some (- r) | None => None end)).
    + intro z. symmetry. exact (at1_neg_ovec _ i).
    + apply opartial_opp, GH.
Qed.
Lemma crema_dir_jacobian_diag reg n so si es nzo nzi b :
  nonzero_list n so nzo -> nonzero_list n si nzi -> pairs_below n es -> crema_dir_dom n es b ->
  accepted d_dispatch "crema" "quasinewton" reg (solve_jacobian_diag (A5c n so si (Triples es) nzo nzi) (n + n) b).
Proof.
  intros Ho Hi Hb Hx. destruct (hessian_diag_crema_dir_correct n so si es nzo nzi b Ho Hi Hb Hx) as (H & EH & GH).
  pick. intros i Hii. exists (- H i). split.
  - change (at1 (obind (ovec (loglikelihood_hessian_diag_crema_directed n es b)) (fun v => Some (ModelDispatch.vneg v))) i = Some (- H i)).
    now rewrite EH.
  - apply (opartial_ext (fun z => match oentry (loglikelihood_prime_crema_directed n so si es nzo nzi z) i with Some r => Some (- r) | None => None end)).
    + intro z. symmetry. exact (at1_neg_ovec _ i).
    + apply opartial_opp, GH.
Qed.
Lemma crema_dir_fixed reg n so si es nzo nzi b r :
  nonzero_list n so nzo -> nonzero_list n si nzi -> crema_dir_dom n es b -> ends_nonzero_dir n es b ->
  (exists i, (i < n)%nat /\ ((r = i /\ so i <> 0) \/ (r = (i + n)%nat /\ si i <> 0))) -> b r <> 0 ->
  accepted d_dispatch "crema" "fixed-point" reg
    (solve_fixes (A5c n so si (Triples es) nzo nzi) (loglikelihood_crema_directed n so si es nzo nzi) b r).
Proof.
  intros Ho Hi Hx He Hr Hb. destruct (fixed_point_crema_dir_iff n so si es nzo nzi b Ho Hi Hx He) as (F & P & EF & EP & H1 & H2).
  destruct (gradient_crema_dir n so si es nzo nzi b Ho Hi Hx) as (P' & EP' & GP). rewrite EP in EP'. injection EP' as <-.
  assert (H : - F r = b r <-> P r = 0).
  { destruct Hr as (i & Li & [(-> & Hs)|(-> & Hs)]); [apply H1|apply H2]; assumption. }
  pick. split; [|exact (f_equal scalar (neg_entry _ _ _ _ (e_ll_crema_directed n so si es nzo nzi b Hx)))]. exists (- P r). split; [apply partial_opp, GP|].
  change (at1 (obind (ovec (iterative_crema_directed n so si es nzo nzi b)) (fun v => Some (ModelDispatch.vneg v))) r = Some (b r) <-> - P r = 0).
  rewrite EF, <- opp_zero_iff, <- H. cbn. apply Some_inj_iff.
Qed.
Lemma crema_dir_sparse_descends reg m n so si x y nzo nzi b :
  In m descent_methods -> (forall i, (i < n)%nat -> 0 <= x i) -> (forall i, (i < n)%nat -> 0 <= y i) ->
  nonzero_list n so nzo -> nonzero_list n si nzi ->
  (forall i, (i < n)%nat -> (x i <> 0 <-> so i <> 0)) -> (forall i, (i < n)%nat -> (y i <> 0 <-> si i <> 0)) ->
  crema_dir_dom n (all_edges n (dcm_prob x y)) b ->
  (forall i j, (i < n)%nat -> (j < n)%nat -> so i <> 0 \/ si j <> 0 -> b i + b (j + n)%nat <> 0) ->
  accepted d_dispatch "crema-sparse" m reg
    (solve_descends (A5c n so si (Factors2 x y) nzo nzi) (loglikelihood_crema_directed n so si (all_edges n (dcm_prob x y)) nzo nzi) (n + n) b).
Proof.
  intros Hm Hx Hy Ho Hi Cx Cy Hd Hb. destruct (gradient_crema_dir n so si _ nzo nzi b Ho Hi Hd) as (P' & EP' & GP).
  cbn in Hm. pick2 Hm;
  (split; [exact (f_equal scalar (neg_entry _ _ _ _ (e_ll_crema_dir_sparse n so si x y nzo nzi b Hx Hy Ho Hi Cx Cy Hd)))|]);
  (split; [exact (f_equal scalar (e_ll_crema_dir_sparse n so si x y nzo nzi b Hx Hy Ho Hi Cx Cy Hd))|]);
  intros h Hh; destruct (dir_sparse_prime n so si x y nzo nzi b h Hx Hy Ho Hi Cx Cy Hd Hh Hb) as (P & EP & EF);
  rewrite EP in EP'; injection EP' as <-; exists (- P h); (split; [|apply partial_opp, GP]).
  all: change (match fopp (loglikelihood_prime_crema_directed_sparse n so si x y nzo nzi b h) with Fin r => Some r | _ => None end = Some (- P h)).
  all: now rewrite EF.
Qed.
Lemma crema_dir_sparse_newton_raises reg :
  accepted d_dispatch "crema-sparse" "newton" reg (fun D => forall n so si x y nzo nzi b,
    run_entry (d_jac D) (A5c n so si (Factors2 x y) nzo nzi) b = None).
Proof. pick. reflexivity. Qed.
