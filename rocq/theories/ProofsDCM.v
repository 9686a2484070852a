(** Proofs about the DBCM functions: normal forms and derivatives. *)
From Coq Require Import Reals List Arith Lia Lra Bool.
From Coquelicot Require Import Coquelicot.
From Verif Require Import Base SpecDeriv SpecGraph SpecEnsemble SpecDirected ModelDCM.
From Verif Require Import ProofsDeriv ProofsGraph ProofsEnsemble ProofsList ProofsECM.
Local Open Scope R_scope.

Section NF.
Variables (n : nat) (k_out k_in : nat -> R) (nzo nzi : list nat) (c : nat -> R).

Lemma loglik_dcm_nf x :
  loglikelihood_dcm n k_out k_in nzo nzi c x =
  (lsum nzo (fun i => c i * k_out i * ln (x i)) + lsum nzi (fun j => c j * k_in j * ln (x (j + n)%nat)))
  - lsum nzo (fun i => lsum nzi (fun j => pairmult c i j * ln (1 + x i * x (j + n)%nat))).
Proof.
  unfold loglikelihood_dcm. cbv zeta.
  rewrite (lloop_add nzi _ _ (fun j => c j * k_in j * ln (x (j + n)%nat))) by reflexivity.
  rewrite (lloop_add nzo _ _ (fun i => c i * k_out i * ln (x i)
     - lsum nzi (fun j => pairmult c i j * ln (1 + x i * x (j + n)%nat)))).
  - rewrite lsum_minus. ring.
  - intros i a Hi.
    rewrite (lloop_sub nzi _ _ (fun j => pairmult c i j * ln (1 + x i * x (j + n)%nat))).
    + ring.
    + intros j b Hj. rewrite (Nat.add_comm n j). unfold pairmult.
      destruct (Nat.eqb i j); simpl; ring.
Qed.

Lemma prime_dcm_out x i : (i < n)%nat -> In i nzo ->
  loglikelihood_prime_dcm n k_out k_in nzo nzi c x i =
  c i * k_out i / x i - lsum nzi (fun j => pairmult c i j * (x (j + n)%nat / (1 + x i * x (j + n)%nat))).
Proof.
  intros Hi Hin. unfold loglikelihood_prime_dcm. rewrite (proj2 (Nat.ltb_lt i n) Hi).
  rewrite (proj2 (memb_In i nzo) Hin). cbv zeta.
  rewrite (lloop_add nzi _ _ (fun j => pairmult c i j * (x (j + n)%nat / (1 + x i * x (j + n)%nat)))).
  - ring.
  - intros j a Hj. unfold pairmult. destruct (Nat.eqb_spec i j) as [->|]; simpl; unfold Rdiv; ring.
Qed.

Lemma prime_dcm_in x j : In j nzi ->
  loglikelihood_prime_dcm n k_out k_in nzo nzi c x (j + n) =
  c j * k_in j / x (j + n)%nat - lsum nzo (fun i => pairmult c i j * (x i / (1 + x i * x (j + n)%nat))).
Proof.
  intros Hin. unfold loglikelihood_prime_dcm. rewrite ltb_plus_n, plus_n_minus.
  rewrite (proj2 (memb_In j nzi) Hin). cbv zeta.
  rewrite (lloop_add nzo _ _ (fun i => pairmult c i j * (x i / (1 + x i * x (j + n)%nat)))).
  - ring.
  - intros i a Hi. rewrite (Rmult_comm (x (j + n)%nat)).
    unfold pairmult. destruct (Nat.eqb_spec i j) as [->|]; simpl; unfold Rdiv; ring.
Qed.

Lemma prime_dcm_out_none x i : (i < n)%nat -> ~ In i nzo ->
  loglikelihood_prime_dcm n k_out k_in nzo nzi c x i = 0.
Proof.
  intros Hi Hin. unfold loglikelihood_prime_dcm. rewrite (proj2 (Nat.ltb_lt i n) Hi). cbv zeta.
  destruct (memb_spec i nzo); [contradiction|reflexivity].
Qed.

Lemma prime_dcm_in_none x j : ~ In j nzi ->
  loglikelihood_prime_dcm n k_out k_in nzo nzi c x (j + n) = 0.
Proof.
  intros Hin. unfold loglikelihood_prime_dcm. rewrite ltb_plus_n, plus_n_minus. cbv zeta.
  destruct (memb_spec j nzi); [contradiction|reflexivity].
Qed.

Lemma loglik_dcm_exp_nf x :
  loglikelihood_dcm_exp n k_out k_in nzo nzi c x =
  (lsum nzo (fun i => - (c i * k_out i * x i)) + lsum nzi (fun j => - (c j * k_in j * x (j + n)%nat)))
  - lsum nzo (fun i => lsum nzi (fun j => pairmult c i j * ln (1 + exp (- x i) * exp (- x (j + n)%nat)))).
Proof.
  unfold loglikelihood_dcm_exp. cbv zeta.
  rewrite (lloop_add nzi _ _ (fun j => - (c j * k_in j * x (j + n)%nat))) by (intros; ring).
  rewrite (lloop_add nzo _ _ (fun i => - (c i * k_out i * x i)
     - lsum nzi (fun j => pairmult c i j * ln (1 + exp (- x i) * exp (- x (j + n)%nat))))).
  - rewrite lsum_minus. ring.
  - intros i a Hi.
    rewrite (lloop_sub nzi _ _ (fun j => pairmult c i j * ln (1 + exp (- x i) * exp (- x (j + n)%nat)))).
    + ring.
    + intros j b Hj. rewrite (Nat.add_comm n j). unfold pairmult.
      replace (- x i - x (j + n)%nat) with (- x i + - x (j + n)%nat) by ring. rewrite exp_plus.
      destruct (Nat.eqb i j); simpl; ring.
Qed.

Lemma prime_dcm_exp_out x i : (i < n)%nat -> In i nzo ->
  loglikelihood_prime_dcm_exp n k_out k_in nzo nzi c x i =
  - (c i * k_out i) - lsum nzi (fun j => - (pairmult c i j *
     (exp (- x i) * exp (- x (j + n)%nat) / (1 + exp (- x i) * exp (- x (j + n)%nat))))).
Proof.
  intros Hi Hin. unfold loglikelihood_prime_dcm_exp. rewrite (proj2 (Nat.ltb_lt i n) Hi).
  rewrite (proj2 (memb_In i nzo) Hin). cbv zeta.
  rewrite (lloop_add nzi _ _ (fun j => pairmult c i j *
     (exp (- x (j + n)%nat) / (1 + exp (- x i) * exp (- x (j + n)%nat))))).
  - rewrite Rplus_0_l, <- lsum_scal, lsum_opp.
    rewrite (lsum_ext nzi _ (fun j => pairmult c i j *
     (exp (- x i) * exp (- x (j + n)%nat) / (1 + exp (- x i) * exp (- x (j + n)%nat))))).
    + ring.
    + intros j Hj. unfold Rdiv. ring.
  - intros j a Hj. unfold pairmult. destruct (Nat.eqb_spec i j) as [->|]; simpl; unfold Rdiv; ring.
Qed.

Lemma prime_dcm_exp_in x j : In j nzi ->
  loglikelihood_prime_dcm_exp n k_out k_in nzo nzi c x (j + n) =
  - (c j * k_in j) - lsum nzo (fun i => - (pairmult c i j *
     (exp (- x i) * exp (- x (j + n)%nat) / (1 + exp (- x i) * exp (- x (j + n)%nat))))).
Proof.
  intros Hin. unfold loglikelihood_prime_dcm_exp. rewrite ltb_plus_n, plus_n_minus.
  rewrite (proj2 (memb_In j nzi) Hin). cbv zeta.
  rewrite (lloop_add nzo _ _ (fun i => pairmult c i j *
     (exp (- x i) / (1 + exp (- x i) * exp (- x (j + n)%nat))))).
  - rewrite Rplus_0_l, <- lsum_scal_r, lsum_opp.
    rewrite (lsum_ext nzo _ (fun i => pairmult c i j *
     (exp (- x i) * exp (- x (j + n)%nat) / (1 + exp (- x i) * exp (- x (j + n)%nat))))).
    + ring.
    + intros i Hi. unfold Rdiv. ring.
  - intros i a Hi. rewrite (Rmult_comm (exp (- x (j + n)%nat))).
    unfold pairmult. destruct (Nat.eqb_spec i j) as [->|]; simpl; unfold Rdiv; ring.
Qed.

Lemma prime_dcm_exp_out_none x i : (i < n)%nat -> ~ In i nzo ->
  loglikelihood_prime_dcm_exp n k_out k_in nzo nzi c x i = 0.
Proof.
  intros Hi Hin. unfold loglikelihood_prime_dcm_exp. rewrite (proj2 (Nat.ltb_lt i n) Hi). cbv zeta.
  destruct (memb_spec i nzo); [contradiction|reflexivity].
Qed.

Lemma prime_dcm_exp_in_none x j : ~ In j nzi ->
  loglikelihood_prime_dcm_exp n k_out k_in nzo nzi c x (j + n) = 0.
Proof.
  intros Hin. unfold loglikelihood_prime_dcm_exp. rewrite ltb_plus_n, plus_n_minus. cbv zeta.
  destruct (memb_spec j nzi); [contradiction|reflexivity].
Qed.

End NF.

(** * Generic derivatives of the directed log-likelihood shape *)

Section Shape.
Variables (n : nat) (nzo nzi : list nat).
Hypothesis (Ho : index_list n nzo) (Hi : index_list n nzi).
(** [A i u]: out term, [B j v]: in term, [G i j u v]: pair term. *)
Variables (A B : nat -> R -> R) (G : nat -> nat -> R -> R -> R).

Definition shape (x : nat -> R) : R :=
  (lsum nzo (fun i => A i (x i)) + lsum nzi (fun j => B j (x (j + n)%nat)))
  - lsum nzo (fun i => lsum nzi (fun j => G i j (x i) (x (j + n)%nat))).

Lemma shape_out (x : nat -> R) h (dA : R) (dG : nat -> R) :
  In h nzo -> is_derive (A h) (x h) dA ->
  (forall j, In j nzi -> is_derive (fun u : R => G h j u (x (j + n)%nat)) (x h) (dG j)) ->
  partial shape x h (dA - lsum nzi dG).
Proof.
  intros Hh HA HG. destruct Ho as [Nd Bd], Hi as [Nd' Bd']. pose proof (Bd h Hh).
  unfold partial, shape.
  apply (is_derive_Rminus (fun t : R => lsum nzo (fun i => A i (upd x h t i)) + lsum nzi (fun j => B j (upd x h t (j + n)%nat)))).
  - apply (is_derive_eq _ _ (dA + 0)); [|ring].
    apply (is_derive_Rplus (fun t : R => lsum nzo (fun i => A i (upd x h t i)))).
    + apply (is_derive_lsum_one nzo h (fun i t => A i (upd x h t i))); auto.
      * intros i Hin Hne. dsimp. apply is_derive_R0.
      * dsimp. exact HA.
    + apply (is_derive_lsum_0 nzi (fun j t => B j (upd x h t (j + n)%nat))).
      intros j Hj. dsimp. apply is_derive_R0.
  - apply (is_derive_lsum_one nzo h (fun i t => lsum nzi (fun j => G i j (upd x h t i) (upd x h t (j + n)%nat)))); auto.
    + intros i Hin Hne. apply (is_derive_lsum_0 nzi (fun j t => G i j (upd x h t i) (upd x h t (j + n)%nat))).
      intros j Hj. dsimp. apply is_derive_R0.
    + apply (is_derive_lsum nzi (fun j t => G h j (upd x h t h) (upd x h t (j + n)%nat))).
      intros j Hj. dsimp. apply HG, Hj.
Qed.

Lemma shape_in (x : nat -> R) h (dB : R) (dG : nat -> R) :
  In h nzi -> is_derive (B h) (x (h + n)%nat) dB ->
  (forall i, In i nzo -> is_derive (fun v : R => G i h (x i) v) (x (h + n)%nat) (dG i)) ->
  partial shape x (h + n) (dB - lsum nzo dG).
Proof.
  intros Hh HB HG. destruct Ho as [Nd Bd], Hi as [Nd' Bd']. pose proof (Bd' h Hh).
  unfold partial, shape.
  apply (is_derive_Rminus (fun t : R => lsum nzo (fun i => A i (upd x (h + n) t i)) + lsum nzi (fun j => B j (upd x (h + n) t (j + n)%nat)))).
  - apply (is_derive_eq _ _ (0 + dB)); [|ring].
    apply (is_derive_Rplus (fun t : R => lsum nzo (fun i => A i (upd x (h + n) t i)))).
    + apply (is_derive_lsum_0 nzo (fun i t => A i (upd x (h + n) t i))).
      intros i Hin. pose proof (Bd i Hin). dsimp. apply is_derive_R0.
    + apply (is_derive_lsum_one nzi h (fun j t => B j (upd x (h + n) t (j + n)%nat))); auto.
      * intros j Hj Hne. dsimp. apply is_derive_R0.
      * dsimp. exact HB.
  - apply (is_derive_lsum nzo (fun i t => lsum nzi (fun j => G i j (upd x (h + n) t i) (upd x (h + n) t (j + n)%nat)))).
    intros i Hin. pose proof (Bd i Hin).
    apply (is_derive_lsum_one nzi h (fun j t => G i j (upd x (h + n) t i) (upd x (h + n) t (j + n)%nat))); auto.
    + intros j Hj Hne. dsimp. apply is_derive_R0.
    + dsimp. apply HG, Hin.
Qed.

Lemma shape_out_none x h : (h < n)%nat -> ~ In h nzo -> partial shape x h 0.
Proof.
  intros Hn Hh. unfold partial, shape.
  eapply is_derive_fext; [|apply (is_derive_R0 (x h) (shape x))].
  intros u. unfold shape.
  assert (E : forall i, In i nzo -> upd x h u i = x i)
    by (intros i Hin; apply upd_neq; intros ->; contradiction).
  assert (F : forall j, upd x h u (j + n)%nat = x (j + n)%nat) by (intros j; apply upd_neq; lia).
  f_equal; [f_equal|].
  - apply lsum_ext. intros i Hin. rewrite E by exact Hin. reflexivity.
  - apply lsum_ext. intros j Hj. rewrite F. reflexivity.
  - apply lsum_ext. intros i Hin. apply lsum_ext. intros j Hj. rewrite E, F by exact Hin. reflexivity.
Qed.

Lemma shape_in_none x h : ~ In h nzi -> partial shape x (h + n) 0.
Proof.
  intros Hh. unfold partial, shape.
  eapply is_derive_fext; [|apply (is_derive_R0 (x (h + n)%nat) (shape x))].
  intros u. unfold shape. destruct Ho as [_ Bd].
  assert (E : forall i, In i nzo -> upd x (h + n) u i = x i)
    by (intros i Hin; apply upd_neq; pose proof (Bd i Hin); lia).
  assert (F : forall j, In j nzi -> upd x (h + n) u (j + n)%nat = x (j + n)%nat).
  { intros j Hj. apply upd_neq. intros Ej. apply Hh. replace h with j by lia. exact Hj. }
  f_equal; [f_equal|].
  - apply lsum_ext. intros i Hin. rewrite E by exact Hin. reflexivity.
  - apply lsum_ext. intros j Hj. rewrite F by exact Hj. reflexivity.
  - apply lsum_ext. intros i Hin. apply lsum_ext. intros j Hj. rewrite E, F by assumption. reflexivity.
Qed.

End Shape.

(** Lemmas for rows: [R0 u - sum_j g_j(u, v_j)]. *)
Section Row.
Variables (n : nat) (l : list nat) (Hl : index_list n l).

(** Row of an out node [i]: variables [x i] and [x (j+n)], [j] in [l]. *)
Lemma row_out_own (A : R -> R) (g : nat -> R -> R -> R) (x : nat -> R) i (dA : R) (dg : nat -> R) :
  (i < n)%nat -> is_derive A (x i) dA ->
  (forall j, In j l -> is_derive (fun u : R => g j u (x (j + n)%nat)) (x i) (dg j)) ->
  partial (fun z => A (z i) - lsum l (fun j => g j (z i) (z (j + n)%nat))) x i (dA - lsum l dg).
Proof.
  intros Hi HA Hg. unfold partial.
  apply (is_derive_Rminus (fun t : R => A (upd x i t i))).
  - dsimp. exact HA.
  - apply (is_derive_lsum l (fun j t => g j (upd x i t i) (upd x i t (j + n)%nat))).
    intros j Hj. dsimp. apply Hg, Hj.
Qed.

Lemma row_out_in (A : R -> R) (g : nat -> R -> R -> R) (x : nat -> R) i h (dg : R) :
  (i < n)%nat -> In h l ->
  is_derive (fun v : R => g h (x i) v) (x (h + n)%nat) dg ->
  partial (fun z => A (z i) - lsum l (fun j => g j (z i) (z (j + n)%nat))) x (h + n) (- dg).
Proof.
  intros Hi Hh Hg. unfold partial.
  apply (is_derive_eq _ _ (0 - dg)); [|ring].
  apply (is_derive_Rminus (fun t : R => A (upd x (h + n) t i))).
  - dsimp. apply is_derive_R0.
  - apply (is_derive_lsum_one l h (fun j t => g j (upd x (h + n) t i) (upd x (h + n) t (j + n)%nat))); auto.
    + apply Hl.
    + intros j Hj Hne. dsimp. apply is_derive_R0.
    + dsimp. exact Hg.
Qed.

Lemma row_out_in_none (A : R -> R) (g : nat -> R -> R -> R) (x : nat -> R) i h :
  (i < n)%nat -> ~ In h l ->
  partial (fun z => A (z i) - lsum l (fun j => g j (z i) (z (j + n)%nat))) x (h + n) 0.
Proof.
  intros Hi Hh. unfold partial.
  eapply is_derive_fext; [|apply (is_derive_R0 (x (h + n)%nat) (A (x i) - lsum l (fun j => g j (x i) (x (j + n)%nat))))].
  intros u. rewrite upd_neq by lia. f_equal. apply lsum_ext. intros j Hj.
  rewrite upd_neq; [reflexivity|]. intros E. apply Hh. replace h with j by lia. exact Hj.
Qed.

Lemma row_out_other (A : R -> R) (g : nat -> R -> R -> R) (x : nat -> R) i h :
  (h < n)%nat -> h <> i ->
  partial (fun z => A (z i) - lsum l (fun j => g j (z i) (z (j + n)%nat))) x h 0.
Proof.
  intros Hh Hne. unfold partial.
  eapply is_derive_fext; [|apply (is_derive_R0 (x h) (A (x i) - lsum l (fun j => g j (x i) (x (j + n)%nat))))].
  intros u. rewrite upd_neq by auto. f_equal. apply lsum_ext. intros j Hj.
  rewrite upd_neq; [reflexivity|lia].
Qed.

(** Row of an in node [h]: variables [x (h+n)] and [x i], [i] in [l]. *)
Lemma row_in_own (B : R -> R) (g : nat -> R -> R -> R) (x : nat -> R) h (dB : R) (dg : nat -> R) :
  is_derive B (x (h + n)%nat) dB ->
  (forall i, In i l -> is_derive (fun v : R => g i (x i) v) (x (h + n)%nat) (dg i)) ->
  partial (fun z => B (z (h + n)%nat) - lsum l (fun i => g i (z i) (z (h + n)%nat))) x (h + n) (dB - lsum l dg).
Proof.
  intros HA Hg. unfold partial.
  apply (is_derive_Rminus (fun t : R => B (upd x (h + n) t (h + n)%nat))).
  - dsimp. exact HA.
  - apply (is_derive_lsum l (fun i t => g i (upd x (h + n) t i) (upd x (h + n) t (h + n)%nat))).
    intros i Hin. destruct Hl as [_ Bd]. pose proof (Bd i Hin). dsimp. apply Hg, Hin.
Qed.

Lemma row_in_out (B : R -> R) (g : nat -> R -> R -> R) (x : nat -> R) h i (dg : R) :
  In i l ->
  is_derive (fun u : R => g i u (x (h + n)%nat)) (x i) dg ->
  partial (fun z => B (z (h + n)%nat) - lsum l (fun i => g i (z i) (z (h + n)%nat))) x i (- dg).
Proof.
  intros Hin Hg. destruct Hl as [Nd Bd]. pose proof (Bd i Hin). unfold partial.
  apply (is_derive_eq _ _ (0 - dg)); [|ring].
  apply (is_derive_Rminus (fun t : R => B (upd x i t (h + n)%nat))).
  - dsimp. apply is_derive_R0.
  - apply (is_derive_lsum_one l i (fun j t => g j (upd x i t j) (upd x i t (h + n)%nat))); auto.
    + intros j Hj Hne. dsimp. apply is_derive_R0.
    + dsimp. exact Hg.
Qed.

Lemma row_in_out_none (B : R -> R) (g : nat -> R -> R -> R) (x : nat -> R) h i :
  (i < n)%nat -> ~ In i l ->
  partial (fun z => B (z (h + n)%nat) - lsum l (fun i => g i (z i) (z (h + n)%nat))) x i 0.
Proof.
  intros Hi Hin. unfold partial.
  eapply is_derive_fext; [|apply (is_derive_R0 (x i) (B (x (h + n)%nat) - lsum l (fun i => g i (x i) (x (h + n)%nat))))].
  intros u. rewrite upd_neq by lia. f_equal. apply lsum_ext. intros j Hj.
  rewrite upd_neq; [reflexivity|]. intros ->. contradiction.
Qed.

Lemma row_in_other (B : R -> R) (g : nat -> R -> R -> R) (x : nat -> R) h h' :
  h' <> h ->
  partial (fun z => B (z (h + n)%nat) - lsum l (fun i => g i (z i) (z (h + n)%nat))) x (h' + n) 0.
Proof.
  intros Hne. destruct Hl as [_ Bd]. unfold partial.
  eapply is_derive_fext; [|apply (is_derive_R0 (x (h' + n)%nat) (B (x (h + n)%nat) - lsum l (fun i => g i (x i) (x (h + n)%nat))))].
  intros u. rewrite upd_neq by lia. f_equal. apply lsum_ext. intros j Hj. pose proof (Bd j Hj).
  rewrite upd_neq; [reflexivity|lia].
Qed.

End Row.

(** * Gradients *)

Lemma partial_eq F (x : nat -> R) h (d d' : R) : partial F x h d -> d = d' -> partial F x h d'.
Proof. intros H <-. exact H. Qed.

Lemma partial_const (a : R) (x : nat -> R) h : partial (fun _ => a) x h 0.
Proof. exact (is_derive_R0 (x h) a). Qed.

Lemma prod_pos_den a b : 0 < a -> 0 < b -> 0 < 1 + a * b.
Proof. intros Ha Hb. pose proof (Rmult_lt_0_compat a b Ha Hb). lra. Qed.

Lemma gradient_dcm n k_out k_in nzo nzi c x r :
  (r < 2 * n)%nat -> index_list n nzo -> index_list n nzi -> dcm_dom n nzo nzi x ->
  partial (loglikelihood_dcm n k_out k_in nzo nzi c) x r
    (loglikelihood_prime_dcm n k_out k_in nzo nzi c x r).
Proof.
  intros Hr Ho Hi [Dx Dy].
  eapply partial_ext; [intros z; symmetry; apply loglik_dcm_nf|].
  pose proof (shape_out n nzo nzi Ho Hi (fun i u => c i * k_out i * ln u) (fun j v => c j * k_in j * ln v)
    (fun i j u v => pairmult c i j * ln (1 + u * v)) x) as SO.
  pose proof (shape_in n nzo nzi Ho Hi (fun i u => c i * k_out i * ln u) (fun j v => c j * k_in j * ln v)
    (fun i j u v => pairmult c i j * ln (1 + u * v)) x) as SI.
  pose proof (shape_out_none n nzo nzi (fun i u => c i * k_out i * ln u) (fun j v => c j * k_in j * ln v)
    (fun i j u v => pairmult c i j * ln (1 + u * v)) x) as NO.
  pose proof (shape_in_none n nzo nzi Ho (fun i u => c i * k_out i * ln u) (fun j v => c j * k_in j * ln v)
    (fun i j u v => pairmult c i j * ln (1 + u * v)) x) as NI.
  unfold shape in *.
  revert r Hr. apply coord2; intros h Hh.
  - destruct (memb_spec h nzo) as [Hin|Hin].
    + rewrite prime_dcm_out by assumption. apply SO; [exact Hin| |].
      * pose proof (Dx h Hin). auto_derive; [assumption|]. field. lra.
      * intros j Hj. pose proof (prod_pos_den _ _ (Dx h Hin) (Dy j Hj)). auto_derive; [assumption|]. field. lra.
    + rewrite prime_dcm_out_none by assumption. apply NO; assumption.
  - destruct (memb_spec h nzi) as [Hin|Hin].
    + rewrite prime_dcm_in by assumption. apply SI; [exact Hin| |].
      * pose proof (Dy h Hin). auto_derive; [assumption|]. field. lra.
      * intros i Hi'. pose proof (prod_pos_den _ _ (Dx i Hi') (Dy h Hin)). auto_derive; [assumption|]. field. lra.
    + rewrite prime_dcm_in_none by assumption. apply NI; assumption.
Qed.

Lemma exp_den a b : 0 < 1 + exp a * exp b.
Proof. apply prod_pos_den; apply exp_pos. Qed.

Lemma gradient_dcm_exp n k_out k_in nzo nzi c x r :
  (r < 2 * n)%nat -> index_list n nzo -> index_list n nzi ->
  partial (loglikelihood_dcm_exp n k_out k_in nzo nzi c) x r
    (loglikelihood_prime_dcm_exp n k_out k_in nzo nzi c x r).
Proof.
  intros Hr Ho Hi.
  eapply partial_ext; [intros z; symmetry; apply loglik_dcm_exp_nf|].
  pose proof (shape_out n nzo nzi Ho Hi (fun i u => - (c i * k_out i * u)) (fun j v => - (c j * k_in j * v))
    (fun i j u v => pairmult c i j * ln (1 + exp (- u) * exp (- v))) x) as SO.
  pose proof (shape_in n nzo nzi Ho Hi (fun i u => - (c i * k_out i * u)) (fun j v => - (c j * k_in j * v))
    (fun i j u v => pairmult c i j * ln (1 + exp (- u) * exp (- v))) x) as SI.
  pose proof (shape_out_none n nzo nzi (fun i u => - (c i * k_out i * u)) (fun j v => - (c j * k_in j * v))
    (fun i j u v => pairmult c i j * ln (1 + exp (- u) * exp (- v))) x) as NO.
  pose proof (shape_in_none n nzo nzi Ho (fun i u => - (c i * k_out i * u)) (fun j v => - (c j * k_in j * v))
    (fun i j u v => pairmult c i j * ln (1 + exp (- u) * exp (- v))) x) as NI.
  unfold shape in *.
  revert r Hr. apply coord2; intros h Hh.
  - destruct (memb_spec h nzo) as [Hin|Hin].
    + rewrite prime_dcm_exp_out by assumption. apply SO; [exact Hin| |].
      * auto_derive; [exact I|]. ring.
      * intros j Hj. pose proof (exp_den (- x h) (- x (j + n)%nat)). auto_derive; [assumption|]. field. lra.
    + rewrite prime_dcm_exp_out_none by assumption. apply NO; assumption.
  - destruct (memb_spec h nzi) as [Hin|Hin].
    + rewrite prime_dcm_exp_in by assumption. apply SI; [exact Hin| |].
      * auto_derive; [exact I|]. ring.
      * intros i Hi'. pose proof (exp_den (- x i) (- x (h + n)%nat)). auto_derive; [assumption|]. field. lra.
    + rewrite prime_dcm_exp_in_none by assumption. apply NI; assumption.
Qed.

(** * Newton matrices *)

Lemma pairmult_code c h i :
  (if Nat.eqb i h then c h * (c h - 1) else c h * c i) = pairmult c h i.
Proof. unfold pairmult. rewrite (Nat.eqb_sym h i). reflexivity. Qed.

Lemma pairmult_code' c h i :
  (if Nat.eqb i h then c h * (c h - 1) else c h * c i) = pairmult c i h.
Proof. rewrite pairmult_code. apply pairmult_sym. Qed.

Ltac diagcase := match goal with |- context [andb (Nat.eqb ?a ?b) _] =>
  destruct (Nat.eqb_spec a b) end.

Lemma hessian_dcm_correct n k_out k_in nzo nzi c x r t :
  (r < 2 * n)%nat -> (t < 2 * n)%nat -> index_list n nzo -> index_list n nzi -> dcm_dom n nzo nzi x ->
  partial (fun z => loglikelihood_prime_dcm n k_out k_in nzo nzi c z r) x t
    (loglikelihood_hessian_dcm n k_out k_in nzo nzi c x r t).
Proof.
  intros Hr Ht Ho Hi [Dx Dy]. revert r t Hr Ht. apply coord22; intros i j Hil Hjl;
  unfold loglikelihood_hessian_dcm;
  rewrite ?ltb_plus_n, ?plus_n_minus, ?(proj2 (Nat.ltb_lt i n) Hil), ?(proj2 (Nat.ltb_lt j n) Hjl); cbv zeta.
  - destruct (memb_spec i nzo) as [Hin|Hin].
    + eapply partial_ext; [intros z; symmetry; apply (prime_dcm_out n k_out k_in nzo nzi c z i Hil Hin)|].
      destruct (Nat.eqb_spec i j) as [<-|Hij]; cbn [andb].
      * rewrite (lloop_add nzi _ _ (fun j => pairmult c i j * (x (j + n)%nat / (1 + x i * x (j + n)%nat)) ^ 2)).
        2: { intros j a Hj. rewrite pairmult_code. ring. }
        eapply partial_eq; [apply (row_out_own n nzi (fun u => c i * k_out i / u)
          (fun j u v => pairmult c i j * (v / (1 + u * v))) x i (- c i * k_out i / x i ^ 2)
          (fun j => - (pairmult c i j * (x (j + n)%nat / (1 + x i * x (j + n)%nat)) ^ 2)))|].
        -- exact Hil.
        -- pose proof (Dx i Hin). auto_derive; [lra|]. field. lra.
        -- intros j Hj. pose proof (prod_pos_den _ _ (Dx i Hin) (Dy j Hj)). auto_derive; [lra|]. field. lra.
        -- rewrite lsum_opp. ring.
      * apply (row_out_other n nzi (fun u => c i * k_out i / u)
          (fun j u v => pairmult c i j * (v / (1 + u * v))) x i j); auto.
    + rewrite andb_false_r. eapply partial_ext; [intros z; symmetry; apply prime_dcm_out_none; assumption|].
      apply partial_const.
  - destruct (memb_spec i nzo) as [Hin|Hin]; cbn [andb].
    + eapply partial_ext; [intros z; symmetry; apply (prime_dcm_out n k_out k_in nzo nzi c z i Hil Hin)|].
      destruct (memb_spec j nzi) as [Hjn|Hjn]; cbn [andb].
      * eapply partial_eq; [apply (row_out_in n nzi Hi (fun u => c i * k_out i / u)
          (fun j u v => pairmult c i j * (v / (1 + u * v))) x i j
           (pairmult c i j / (1 + x (j + n)%nat * x i) ^ 2) Hil Hjn)|].
        -- pose proof (prod_pos_den _ _ (Dx i Hin) (Dy j Hjn)). auto_derive; [lra|]. field. lra.
        -- rewrite pairmult_code. unfold Rdiv. ring.
      * apply (row_out_in_none n nzi (fun u => c i * k_out i / u)
          (fun j u v => pairmult c i j * (v / (1 + u * v))) x i j); auto.
    + eapply partial_ext; [intros z; symmetry; apply prime_dcm_out_none; assumption|].
      apply partial_const.
  - destruct (memb_spec i nzi) as [Hin|Hin]; cbn [andb].
    + eapply partial_ext; [intros z; symmetry; apply (prime_dcm_in n k_out k_in nzo nzi c z i Hin)|].
      destruct (memb_spec j nzo) as [Hjn|Hjn]; cbn [andb].
      * eapply partial_eq; [apply (row_in_out n nzo Ho (fun u => c i * k_in i / u)
          (fun j u v => pairmult c j i * (u / (1 + u * v))) x i j
           (pairmult c j i / (1 + x (i + n)%nat * x j) ^ 2) Hjn)|].
        -- pose proof (prod_pos_den _ _ (Dx j Hjn) (Dy i Hin)). auto_derive; [lra|]. field. lra.
        -- rewrite pairmult_code. unfold Rdiv. ring.
      * apply (row_in_out_none n nzo (fun u => c i * k_in i / u)
          (fun j u v => pairmult c j i * (u / (1 + u * v))) x i j); auto.
    + rewrite andb_false_r. eapply partial_ext; [intros z; symmetry; apply prime_dcm_in_none; assumption|].
      apply partial_const.
  - destruct (memb_spec i nzi) as [Hin|Hin].
    + eapply partial_ext; [intros z; symmetry; apply (prime_dcm_in n k_out k_in nzo nzi c z i Hin)|].
      diagcase; cbn [andb].
      * assert (i = j) by lia. subst j.
        rewrite (lloop_add nzo _ _ (fun h => pairmult c h i * ((x h) ^ 2 / (1 + x (i + n)%nat * x h) ^ 2))).
        2: { intros h a Hh'. rewrite pairmult_code. unfold Rdiv. ring. }
        eapply partial_eq; [apply (row_in_own n nzo Ho (fun u => c i * k_in i / u)
          (fun h u v => pairmult c h i * (u / (1 + u * v))) x i (- c i * k_in i / (x (i + n)%nat * x (i + n)%nat))
          (fun h => - (pairmult c h i * ((x h) ^ 2 / (1 + x (i + n)%nat * x h) ^ 2))))|].
        -- pose proof (Dy i Hin). auto_derive; [lra|]. field. lra.
        -- intros h Hh'. pose proof (prod_pos_den _ _ (Dx h Hh') (Dy i Hin)). auto_derive; [lra|]. field. lra.
        -- rewrite lsum_opp. ring.
      * apply (row_in_other n nzo Ho (fun u => c i * k_in i / u)
          (fun h u v => pairmult c h i * (u / (1 + u * v))) x i j). lia.
    + rewrite andb_false_r. eapply partial_ext; [intros z; symmetry; apply prime_dcm_in_none; assumption|].
      apply partial_const.
Qed.

Lemma hessian_dcm_exp_correct n k_out k_in nzo nzi c x r t :
  (r < 2 * n)%nat -> (t < 2 * n)%nat -> index_list n nzo -> index_list n nzi ->
  partial (fun z => loglikelihood_prime_dcm_exp n k_out k_in nzo nzi c z r) x t
    (loglikelihood_hessian_dcm_exp n nzo nzi c x r t).
Proof.
  intros Hr Ht Ho Hi. revert r t Hr Ht. apply coord22; intros i j Hil Hjl;
  unfold loglikelihood_hessian_dcm_exp;
  rewrite ?ltb_plus_n, ?plus_n_minus, ?(proj2 (Nat.ltb_lt i n) Hil), ?(proj2 (Nat.ltb_lt j n) Hjl); cbv zeta.
  - destruct (memb_spec i nzo) as [Hin|Hin].
    + eapply partial_ext; [intros z; symmetry; apply (prime_dcm_exp_out n k_out k_in nzo nzi c z i Hil Hin)|].
      destruct (Nat.eqb_spec i j) as [<-|Hij]; cbn [andb].
      * rewrite (lloop_add nzi _ _ (fun j => pairmult c i j * (exp (- x (j + n)%nat) * exp (- x i)
           / (1 + exp (- x (j + n)%nat) * exp (- x i)) ^ 2))).
        2: { intros j a Hj. rewrite pairmult_code. unfold Rdiv. ring. }
        eapply partial_eq; [apply (row_out_own n nzi (fun u => - (c i * k_out i))
          (fun j u v => - (pairmult c i j * (exp (- u) * exp (- v) / (1 + exp (- u) * exp (- v))))) x i 0
          (fun j => pairmult c i j * (exp (- x (j + n)%nat) * exp (- x i)
           / (1 + exp (- x (j + n)%nat) * exp (- x i)) ^ 2)))|].
        -- exact Hil.
        -- apply is_derive_R0.
        -- intros j Hj. pose proof (exp_den (- x i) (- x (j + n)%nat)). auto_derive; [lra|]. field. lra.
        -- ring.
      * apply (row_out_other n nzi (fun u => - (c i * k_out i))
          (fun j u v => - (pairmult c i j * (exp (- u) * exp (- v) / (1 + exp (- u) * exp (- v))))) x i j); auto.
    + rewrite andb_false_r. eapply partial_ext; [intros z; symmetry; apply prime_dcm_exp_out_none; assumption|].
      apply partial_const.
  - destruct (memb_spec i nzo) as [Hin|Hin]; cbn [andb].
    + eapply partial_ext; [intros z; symmetry; apply (prime_dcm_exp_out n k_out k_in nzo nzi c z i Hil Hin)|].
      destruct (memb_spec j nzi) as [Hjn|Hjn]; cbn [andb].
      * eapply partial_eq; [apply (row_out_in n nzi Hi (fun u => - (c i * k_out i))
          (fun j u v => - (pairmult c i j * (exp (- u) * exp (- v) / (1 + exp (- u) * exp (- v))))) x i j
           (pairmult c i j * (exp (- x (j + n)%nat) * exp (- x i)) / (1 + exp (- x (j + n)%nat) * exp (- x i)) ^ 2) Hil Hjn)|].
        -- pose proof (exp_den (- x i) (- x (j + n)%nat)). auto_derive; [lra|]. field. lra.
        -- rewrite pairmult_code. unfold Rdiv. ring.
      * apply (row_out_in_none n nzi (fun u => - (c i * k_out i))
          (fun j u v => - (pairmult c i j * (exp (- u) * exp (- v) / (1 + exp (- u) * exp (- v))))) x i j); auto.
    + eapply partial_ext; [intros z; symmetry; apply prime_dcm_exp_out_none; assumption|].
      apply partial_const.
  - destruct (memb_spec i nzi) as [Hin|Hin]; cbn [andb].
    + eapply partial_ext; [intros z; symmetry; apply (prime_dcm_exp_in n k_out k_in nzo nzi c z i Hin)|].
      destruct (memb_spec j nzo) as [Hjn|Hjn]; cbn [andb].
      * eapply partial_eq; [apply (row_in_out n nzo Ho (fun u => - (c i * k_in i))
          (fun j u v => - (pairmult c j i * (exp (- u) * exp (- v) / (1 + exp (- u) * exp (- v))))) x i j
           (pairmult c j i * (exp (- x j) * exp (- x (i + n)%nat)) / (1 + exp (- x j) * exp (- x (i + n)%nat)) ^ 2) Hjn)|].
        -- pose proof (exp_den (- x j) (- x (i + n)%nat)). auto_derive; [lra|]. field. lra.
        -- rewrite pairmult_code. unfold Rdiv. ring.
      * apply (row_in_out_none n nzo (fun u => - (c i * k_in i))
          (fun j u v => - (pairmult c j i * (exp (- u) * exp (- v) / (1 + exp (- u) * exp (- v))))) x i j); auto.
    + rewrite andb_false_r. eapply partial_ext; [intros z; symmetry; apply prime_dcm_exp_in_none; assumption|].
      apply partial_const.
  - destruct (memb_spec i nzi) as [Hin|Hin].
    + eapply partial_ext; [intros z; symmetry; apply (prime_dcm_exp_in n k_out k_in nzo nzi c z i Hin)|].
      diagcase; cbn [andb].
      * assert (i = j) by lia. subst j.
        rewrite (lloop_add nzo _ _ (fun h => pairmult c h i * (exp (- x h) * exp (- x (i + n)%nat)
           / (1 + exp (- x h) * exp (- x (i + n)%nat)) ^ 2))).
        2: { intros h a Hh'. rewrite pairmult_code. unfold Rdiv. ring. }
        eapply partial_eq; [apply (row_in_own n nzo Ho (fun u => - (c i * k_in i))
          (fun h u v => - (pairmult c h i * (exp (- u) * exp (- v) / (1 + exp (- u) * exp (- v))))) x i 0
          (fun h => pairmult c h i * (exp (- x h) * exp (- x (i + n)%nat)
           / (1 + exp (- x h) * exp (- x (i + n)%nat)) ^ 2)))|].
        -- apply is_derive_R0.
        -- intros h Hh'. pose proof (exp_den (- x h) (- x (i + n)%nat)). auto_derive; [lra|]. field. lra.
        -- ring.
      * apply (row_in_other n nzo Ho (fun u => - (c i * k_in i))
          (fun h u v => - (pairmult c h i * (exp (- u) * exp (- v) / (1 + exp (- u) * exp (- v))))) x i j). lia.
    + rewrite andb_false_r. eapply partial_ext; [intros z; symmetry; apply prime_dcm_exp_in_none; assumption|].
      apply partial_const.
Qed.

Lemma lloop_ext (l : list nat) (a : R) f g :
  (forall j b, In j l -> f j b = g j b) -> lloop l a f = lloop l a g.
Proof.
  unfold lloop. revert a. induction l as [|j l IH]; intros a H; simpl; [reflexivity|].
  rewrite H by (left; reflexivity). apply IH. intros; apply H; right; assumption.
Qed.

Lemma hessian_diag_dcm_exp_eq n nzo nzi c x r :
  loglikelihood_hessian_diag_dcm_exp n nzo nzi c x r = loglikelihood_hessian_dcm_exp n nzo nzi c x r r.
Proof.
  unfold loglikelihood_hessian_diag_dcm_exp, loglikelihood_hessian_dcm_exp. cbv zeta.
  rewrite Nat.eqb_refl. cbn [andb].
  destruct (Nat.ltb r n).
  - destruct (memb r nzo); [|reflexivity]. f_equal. apply lloop_ext. intros j b Hj.
    rewrite pairmult_code. f_equal. f_equal. f_equal. unfold pairmult.
    destruct (Nat.eqb_spec r j) as [->|]; reflexivity.
  - destruct (memb (r - n) nzi); [|reflexivity]. f_equal. apply lloop_ext. intros j b Hj.
    rewrite pairmult_code. f_equal. f_equal. f_equal. unfold pairmult.
    destruct (Nat.eqb_spec j (r - n)) as [->|]; reflexivity.
Qed.

Lemma hessian_diag_dcm_exp_correct n k_out k_in nzo nzi c x r :
  (r < 2 * n)%nat -> index_list n nzo -> index_list n nzi ->
  partial (fun z => loglikelihood_prime_dcm_exp n k_out k_in nzo nzi c z r) x r
    (loglikelihood_hessian_diag_dcm_exp n nzo nzi c x r).
Proof. intros. rewrite hessian_diag_dcm_exp_eq. apply hessian_dcm_exp_correct; assumption. Qed.

(** The plain diagonal misses the multiplicity of the class. *)

Lemma hessian_diag_dcm_scaled n k_out k_in nzo nzi c x r :
  dcm_dom n nzo nzi x ->
  loglikelihood_hessian_dcm n k_out k_in nzo nzi c x r r =
  c (node_of n r) * loglikelihood_hessian_diag_dcm n k_out k_in nzo nzi c x r.
Proof.
  intros [Dx Dy].
  unfold loglikelihood_hessian_diag_dcm, loglikelihood_hessian_dcm, node_of. cbv zeta.
  rewrite Nat.eqb_refl. cbn [andb].
  destruct (Nat.ltb_spec r n) as [Hr|Hr].
  - destruct (memb_spec r nzo) as [Hin|]; [|ring].
    rewrite (lloop_add nzi _ _ (fun j => c r * ((if negb (Nat.eqb r j) then c j else c r - 1) * x (j + n)%nat * x (j + n)%nat
       / ((1 + x r * x (j + n)%nat) * (1 + x r * x (j + n)%nat))))).
    + rewrite (lloop_add nzi _ _ (fun j => (if negb (Nat.eqb r j) then c j else c r - 1) * x (j + n)%nat * x (j + n)%nat
       / ((1 + x r * x (j + n)%nat) * (1 + x r * x (j + n)%nat)))) by reflexivity.
      rewrite lsum_scal. pose proof (Dx r Hin). field. lra.
    + intros j a Hj. rewrite (Nat.eqb_sym j r). pose proof (prod_pos_den _ _ (Dx r Hin) (Dy j Hj)).
      destruct (Nat.eqb_spec r j) as [<-|]; cbn [negb]; field; lra.
  - destruct (memb_spec (r - n) nzi) as [Hin|]; [|ring].
    set (i := (r - n)%nat) in *.
    rewrite (lloop_add nzo _ _ (fun j => c i * ((if negb (Nat.eqb j i) then c j else c i - 1) * x j * x j
       / ((1 + x (i + n)%nat * x j) * (1 + x (i + n)%nat * x j))))).
    + rewrite (lloop_add nzo _ _ (fun j => (if negb (Nat.eqb j i) then c j else c i - 1) * x j * x j
       / ((1 + x (i + n)%nat * x j) * (1 + x (i + n)%nat * x j)))) by reflexivity.
      rewrite lsum_scal. pose proof (Dy i Hin). field. lra.
    + intros j a Hj. rewrite (Nat.eqb_sym i j). pose proof (prod_pos_den _ _ (Dx j Hj) (Dy i Hin)).
      destruct (Nat.eqb_spec j i) as [->|]; cbn [negb]; field; lra.
Qed.
