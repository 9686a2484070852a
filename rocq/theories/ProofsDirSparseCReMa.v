(** CReMa, directed: the sparse functions against the dense ones. *)
From Coq Require Import Reals List Arith Lia Lra Bool FunctionalExtensionality.
From Coquelicot Require Import Coquelicot.
From Verif Require Import Base SpecDeriv ProofsDeriv SpecGraph ProofsGraph SpecEnsemble ProofsEnsemble.
From Verif Require Import ModelCM ModelDCM SpecDirected ProofsList ModelDECM ModelCReMa SpecCReMa.
From Verif Require Import ProofsCReMa ProofsMainCReMa ProofsSparseCReMa ProofsDirCReMa.
Local Open Scope R_scope.
Import ListNotations.

Lemma pmatrix_dcm_prob n io ii x i j : dcm_full n io ii x -> (i < n)%nat -> (j < n)%nat ->
  pmatrix_dcm n io ii x i j = dcm_prob x (fun j => x (j + n)%nat) i j.
Proof.
  intros (_ & Zo & Zi) Hi Hj. unfold pmatrix_dcm, dcm_prob.
  destruct (memb_spec i io) as [Mi|Mi], (memb_spec j ii) as [Mj|Mj]; cbn [andb];
    destruct (Nat.eqb_spec i j); cbn [negb]; try reflexivity;
    try (rewrite (Zo i Hi Mi)); try (rewrite (Zi j Hj Mj)); unfold Rdiv; ring.
Qed.

Lemma olloop_obs {A K : Type} (obs : K -> A -> R) l (body : nat -> A -> option A) g a0 :
  (forall i a, In i l -> exists a', body i a = Some a' /\ forall k, obs k a' = obs k a + g k i) ->
  exists a', olloop l a0 body = Some a' /\ forall k, obs k a' = obs k a0 + lsum l (g k).
Proof.
  unfold olloop, lloop. revert a0. induction l as [|i l IH]; intros a0 H.
  - exists a0. split; [reflexivity|]. intros; simpl; ring.
  - simpl. destruct (H i a0 (or_introl eq_refl)) as (a1 & E1 & O1). rewrite E1.
    destruct (IH a1) as (a2 & E2 & O2); [intros; apply H; right; assumption|].
    exists a2. split; [exact E2|]. intros k. rewrite O2, O1. ring.
Qed.

Lemma nonzero_of_spec n v : nonzero_list n v (nonzero_of n v).
Proof.
  split.
  - apply NoDup_filter, seq_NoDup.
  - intros i. unfold nonzero_of. rewrite filter_In, in_seq. destruct (Req_EM_T (v i) 0); split; intros; intuition; try lia; congruence.
Qed.

Section DSparse.
  Variables (n : nat) (x y beta : nat -> R).
  Hypothesis Hx : forall i, (i < n)%nat -> 0 <= x i.
  Hypothesis Hy : forall i, (i < n)%nat -> 0 <= y i.
  Let p := dcm_prob x y.
  Let es := all_edges n p.

  Lemma dp_ne i j : (i < n)%nat -> (j < n)%nat -> 1 + x i * y j <> 0.
  Proof. intros Hi Hj. pose proof (Rmult_le_pos _ _ (Hx i Hi) (Hy j Hj)). lra. Qed.
  Lemma dp_nonneg i j : (i < n)%nat -> (j < n)%nat -> 0 <= x i * y j / (1 + x i * y j).
  Proof. intros Hi Hj. pose proof (Rmult_le_pos _ _ (Hx i Hi) (Hy j Hj)). apply Rdiv_le_0_compat; lra. Qed.
  Lemma p_off i j : i <> j -> p i j = x i * y j / (1 + x i * y j).
  Proof. intros H. unfold p, dcm_prob. rewrite (proj2 (Nat.eqb_neq i j) H). reflexivity. Qed.
  Lemma p_diag i : p i i = 0.
  Proof. unfold p, dcm_prob. rewrite Nat.eqb_refl. reflexivity. Qed.
  Lemma p_nonneg i j : (i < n)%nat -> (j < n)%nat -> 0 <= p i j.
  Proof. intros. destruct (Nat.eq_dec i j) as [->|]; [rewrite p_diag; lra|]. rewrite p_off by assumption. apply dp_nonneg; assumption. Qed.
  Lemma p_zero_x i j : x i = 0 -> p i j = 0.
  Proof. intros H. unfold p, dcm_prob. destruct (Nat.eqb i j); [reflexivity|]. rewrite H. unfold Rdiv. ring. Qed.
  Lemma p_zero_y i j : y j = 0 -> p i j = 0.
  Proof. intros H. unfold p, dcm_prob. destruct (Nat.eqb i j); [reflexivity|]. rewrite H. unfold Rdiv. ring. Qed.

  Lemma es_below : pairs_below n es.
  Proof. intros i j w Hin. apply in_all in Hin. destruct Hin as (H1 & H2 & _). split; [exact H1|exact H2]. Qed.
  Lemma es_nonneg : nonneg_weights es.
  Proof. intros i j w Hin. apply in_all in Hin. destruct Hin as (? & ? & -> & _). apply p_nonneg; assumption. Qed.
  Lemma es_simple : simple_arcs es.
  Proof.
    apply NoDup_map_inj_in; [apply NoDup_all|]. intros [[a b] w] [[a' b'] w'] H1 H2 E. simpl in E. injection E as -> ->.
    apply in_all in H1. apply in_all in H2. destruct H1 as (_ & _ & -> & _), H2 as (_ & _ & -> & _). reflexivity.
  Qed.

  Hypothesis HD : crema_dir_dom n es beta.
  Lemma es_dom i j : (i < n)%nat -> (j < n)%nat -> 0 < p i j -> 0 < beta i + beta (j + n)%nat.
  Proof. intros Hi Hj Hp. apply (HD i j (p i j)). apply in_all. repeat split; auto. lra. Qed.

  Lemma esum_sh G : (forall i j, G i (j + n)%nat 0 = 0) ->
    esum (sh n es) G = rsum n (fun i => rsum n (fun j => G i (j + n)%nat (p i j))).
  Proof.
    intros H0. unfold esum, sh. rewrite lsum_map. simpl.
    apply (esum_all n p (fun i j w => G i (j + n)%nat w)). exact H0.
  Qed.

  Lemma esum_sh_out (g : nat -> nat -> R -> R) k : (forall i j, g i j 0 = 0) -> (k < n)%nat ->
    esum (sh n es) (fun i j w => hit i j k * g i j w) = rsum n (fun j => g k (j + n)%nat (p k j)).
  Proof.
    intros H0 Hk. rewrite esum_sh by (intros; rewrite H0; ring).
    rewrite (rsum_ext n _ (fun i => if Nat.eqb i k then rsum n (fun j => g i (j + n)%nat (p i j)) else 0)).
    - apply (rsum_single n k (fun i => rsum n (fun j => g i (j + n)%nat (p i j))) Hk).
    - intros i Hi. unfold hit. rewrite (rsum_ext n _ (fun j => (if Nat.eqb i k then 1 else 0) * g i (j + n)%nat (p i j))).
      + rewrite rsum_scal_l. destruct (Nat.eqb i k); ring.
      + intros j Hj. rewrite (proj2 (Nat.eqb_neq (j + n) k)) by lia. ring.
  Qed.
  Lemma esum_sh_in (g : nat -> nat -> R -> R) k : (forall i j, g i j 0 = 0) -> (k < n)%nat ->
    esum (sh n es) (fun i j w => hit i j (k + n) * g i j w) = rsum n (fun i => g i (k + n)%nat (p i k)).
  Proof.
    intros H0 Hk. rewrite esum_sh by (intros; rewrite H0; ring).
    apply rsum_ext. intros i Hi. rewrite <- (rsum_single n k (fun j => g i (j + n)%nat (p i j)) Hk).
    apply rsum_ext. intros j Hj. unfold hit. rewrite (proj2 (Nat.eqb_neq i (k + n))) by lia.
    destruct (Nat.eqb_spec (j + n) (k + n)), (Nat.eqb_spec j k); try lia; ring.
  Qed.

  Lemma cE_out k : (k < n)%nat -> cE (sh n es) beta k = rsum n (fun j => p k j / (beta k + beta (j + n)%nat)).
  Proof. intros Hk. apply (esum_sh_out (fun i j w => w / (beta i + beta j)) k); [intros; unfold Rdiv; ring|exact Hk]. Qed.
  Lemma cE_in k : (k < n)%nat -> cE (sh n es) beta (k + n) = rsum n (fun i => p i k / (beta i + beta (k + n)%nat)).
  Proof. intros Hk. apply (esum_sh_in (fun i j w => w / (beta i + beta j)) k); [intros; unfold Rdiv; ring|exact Hk]. Qed.

  (** Guarded inner step of the scalar loops. *)
  Lemma guard_step (A : Type) (i j : nat) (yes : R -> option A) (no : A) :
    (i < n)%nat -> (j < n)%nat ->
    (if negb (Nat.eqb i j) then
       obind (sdiv (x i * y j) (1 + x i * y j)) (fun a => if Rlt_dec 0 a then yes a else Some no)
     else Some no) = if Rlt_dec 0 (p i j) then yes (p i j) else Some no.
  Proof.
    intros Hi Hj. destruct (Nat.eqb_spec i j) as [->|Hn]; cbn [negb].
    - rewrite p_diag. destruct (Rlt_dec 0 0); [lra|reflexivity].
    - rewrite sdiv_some by (apply dp_ne; assumption). cbn [obind]. rewrite p_off by exact Hn. reflexivity.
  Qed.

  Lemma expected_out_crema_sparse_eq k : (k < n)%nat ->
    oentry (expected_out_strength_crema_directed_sparse n x y beta) k =
    oentry (expected_out_strength_crema_directed n es beta) k.
  Proof.
    intros Hk. destruct (expected_out_crema_dir n es beta HD) as (E & EE & OE). rewrite EE. simpl. rewrite OE, cE_out by exact Hk.
    unfold expected_out_strength_crema_directed_sparse.
    match goal with |- oentry (oloop n ?f0 ?b) k = _ =>
      destruct (oloop_obs (fun k (f : nat -> R) => f k) n b
        (fun k i => rsum n (fun j => if Nat.eqb i k then p i j / (beta i + beta (j + n)%nat) else 0)) f0) as (F & EF & OF) end.
    - intros i f Hi. cbv beta.
      match goal with |- context [oloop n f ?b] =>
        destruct (oloop_obs (fun k (f : nat -> R) => f k) n b
          (fun k j => if Nat.eqb i k then p i j / (beta i + beta (j + n)%nat) else 0) f) as (F & EF & OF) end.
      + intros j f' Hj. cbv beta zeta. rewrite guard_step by assumption.
        destruct (Rlt_dec 0 (p i j)) as [Hp|Hp].
        * pose proof (es_dom i j Hi Hj Hp). rewrite sdiv_some by lra. cbn [obind]. eexists; split; [reflexivity|].
          intros r. destruct (Nat.eqb_spec i r) as [->|Hr]; [rewrite upd_eq; ring|rewrite upd_neq by auto; ring].
        * exists f'. split; [reflexivity|]. intros r. pose proof (p_nonneg i j Hi Hj). replace (p i j) with 0 by lra.
          destruct (Nat.eqb i r); unfold Rdiv; ring.
      + exists F. split; [exact EF|]. exact OF.
    - rewrite EF. simpl. f_equal. rewrite OF, Rplus_0_l.
      rewrite (rsum_ext n _ (fun i => if Nat.eqb i k then rsum n (fun j => p i j / (beta i + beta (j + n)%nat)) else 0)).
      + apply (rsum_single n k (fun i => rsum n (fun j => p i j / (beta i + beta (j + n)%nat))) Hk).
      + intros i Hi. destruct (Nat.eqb i k); [reflexivity|apply rsum_0].
  Qed.

  Lemma expected_in_crema_sparse_eq k : (k < n)%nat ->
    oentry (expected_in_stregth_crema_directed_sparse n x y beta) k =
    oentry (expected_in_strength_crema_directed n es beta) k.
  Proof.
    intros Hk. destruct (expected_in_crema_dir n es es_below beta HD) as (E & EE & OE). rewrite EE. simpl. rewrite OE, cE_in by exact Hk.
    unfold expected_in_stregth_crema_directed_sparse.
    match goal with |- oentry (oloop n ?f0 ?b) k = _ =>
      destruct (oloop_obs (fun k (f : nat -> R) => f k) n b
        (fun k i => rsum n (fun j => if Nat.eqb i k then p j i / (beta j + beta (i + n)%nat) else 0)) f0) as (F & EF & OF) end.
    - intros i f Hi. cbv beta.
      match goal with |- context [oloop n f ?b] =>
        destruct (oloop_obs (fun k (f : nat -> R) => f k) n b
          (fun k j => if Nat.eqb i k then p j i / (beta j + beta (i + n)%nat) else 0) f) as (F & EF & OF) end.
      + intros j f' Hj. cbv beta zeta. rewrite (Nat.eqb_sym i j). rewrite guard_step by assumption.
        destruct (Rlt_dec 0 (p j i)) as [Hp|Hp].
        * pose proof (es_dom j i Hj Hi Hp). rewrite sdiv_some by lra. cbn [obind]. eexists; split; [reflexivity|].
          intros r. destruct (Nat.eqb_spec i r) as [->|Hr]; [rewrite upd_eq; ring|rewrite upd_neq by auto; ring].
        * exists f'. split; [reflexivity|]. intros r. pose proof (p_nonneg j i Hj Hi). replace (p j i) with 0 by lra.
          destruct (Nat.eqb i r); unfold Rdiv; ring.
      + exists F. split; [exact EF|]. exact OF.
    - rewrite EF. simpl. f_equal. rewrite OF, Rplus_0_l.
      rewrite (rsum_ext n _ (fun i => if Nat.eqb i k then rsum n (fun j => p j i / (beta j + beta (i + n)%nat)) else 0)).
      + apply (rsum_single n k (fun i => rsum n (fun j => p j i / (beta j + beta (i + n)%nat))) Hk).
      + intros i Hi. destruct (Nat.eqb i k); [reflexivity|apply rsum_0].
  Qed.

  (** With strengths: a node with a positive parameter has a positive strength. *)
  Section Str.
    Variables (s_out s_in : nat -> R) (nzo nzi : list nat).
    Hypothesis Ho : nonzero_list n s_out nzo.
    Hypothesis Hi : nonzero_list n s_in nzi.
    Hypothesis Cx : forall i, (i < n)%nat -> (x i <> 0 <-> s_out i <> 0).
    Hypothesis Cy : forall i, (i < n)%nat -> (y i <> 0 <-> s_in i <> 0).

    Lemma lsum_nz_out (g : nat -> R) : (forall i, (i < n)%nat -> x i = 0 -> g i = 0) -> lsum nzo g = rsum n g.
    Proof.
      intros H. rewrite (lsum_mask n nzo g (nonzero_index _ _ _ Ho)). apply rsum_ext. intros i Hlt.
      destruct (memb_spec i nzo) as [M|M]; [reflexivity|]. symmetry. apply H; [exact Hlt|].
      destruct (Req_EM_T (x i) 0) as [Z|Z]; [exact Z|]. exfalso. apply M, Ho. split; [exact Hlt|]. apply Cx; assumption.
    Qed.
    Lemma lsum_nz_in (g : nat -> R) : (forall i, (i < n)%nat -> y i = 0 -> g i = 0) -> lsum nzi g = rsum n g.
    Proof.
      intros H. rewrite (lsum_mask n nzi g (nonzero_index _ _ _ Hi)). apply rsum_ext. intros i Hlt.
      destruct (memb_spec i nzi) as [M|M]; [reflexivity|]. symmetry. apply H; [exact Hlt|].
      destruct (Req_EM_T (y i) 0) as [Z|Z]; [exact Z|]. exfalso. apply M, Hi. split; [exact Hlt|]. apply Cy; assumption.
    Qed.

    Lemma loglik_crema_dir_sparse_eq :
      loglikelihood_crema_directed_sparse n s_out s_in x y nzo nzi beta =
      Some (loglikelihood_crema_directed n s_out s_in es nzo nzi beta).
    Proof.
      rewrite (loglik_crema_dir_eq n s_out s_in es nzo nzi Ho Hi), loglik_crema_nf. unfold loglikelihood_crema_directed_sparse.
      match goal with |- obind (olloop nzo 0 ?b) _ = _ =>
        destruct (olloop_obs (fun (_ : unit) (f : R) => f) nzo b
          (fun _ i => - (s_out i * beta i) + rsum n (fun j => p i j * ln (beta i + beta (j + n)%nat))) 0) as (F & EF & OF) end.
      - intros i f Hin. assert (Hlt : (i < n)%nat) by (apply (proj2 (nonzero_index _ _ _ Ho)); exact Hin). cbv beta zeta.
        match goal with |- context [olloop nzi ?f0 ?b] =>
          destruct (olloop_obs (fun (_ : unit) (f : R) => f) nzi b
            (fun _ j => p i j * ln (beta i + beta (j + n)%nat)) f0) as (F & EF & OF) end.
        + intros j f' Hjn. assert (Hj : (j < n)%nat) by (apply (proj2 (nonzero_index _ _ _ Hi)); exact Hjn).
          rewrite guard_step by assumption. destruct (Rlt_dec 0 (p i j)) as [Hp|Hp].
          * eexists; split; [reflexivity|]. intros _. reflexivity.
          * exists f'. split; [reflexivity|]. intros _. pose proof (p_nonneg i j Hlt Hj). replace (p i j) with 0 by lra. ring.
        + exists F. split; [exact EF|]. intros u. rewrite (OF u). rewrite lsum_nz_in.
          * ring.
          * intros j Hj Z. rewrite (p_zero_y i j Z). ring.
      - rewrite EF. cbn [obind]. f_equal. rewrite (lloop_sub nzi F _ (fun i => s_in i * beta (i + n)%nat)) by (intros; reflexivity).
        specialize (OF tt). cbv beta in OF. rewrite OF. unfold cL.
        rewrite (esum_sh (fun i j w => w * ln (beta i + beta j))) by (intros; ring).
        rewrite lsum_plus, lsum_opp.
        rewrite (lsum_nonzero n s_out nzo beta Ho), (lsum_nonzero n s_in nzi (fun i => beta (i + n)%nat) Hi).
        rewrite lsum_nz_out.
        2: { intros i Hlt Z. apply rsum_zero. intros j Hj. rewrite (p_zero_x i j Z). ring. }
        rewrite (rsum_cat n).
        rewrite (rsum_ext n (fun i => cat n s_out s_in i * beta i) (fun i => s_out i * beta i)) by (intros i Hlt; rewrite (cat_lo' n s_out s_in i Hlt); reflexivity).
        rewrite (rsum_ext n (fun i => cat n s_out s_in (i + n)%nat * beta (i + n)%nat) (fun i => s_in i * beta (i + n)%nat)) by (intros i Hlt; unfold cat; rewrite ltb_plus_n, plus_n_minus; reflexivity).
        ring.
    Qed.

    Lemma nz_out_eq : nonzero_list n s_out (nonzero_of n x).
    Proof.
      destruct (nonzero_of_spec n x) as [N S]. split; [exact N|]. intros i. rewrite S. split; intros [H1 H2]; (split; [exact H1|apply Cx; assumption]).
    Qed.
    Lemma nz_in_eq : nonzero_list n s_in (nonzero_of n y).
    Proof.
      destruct (nonzero_of_spec n y) as [N S]. split; [exact N|]. intros i. rewrite S. split; intros [H1 H2]; (split; [exact H1|apply Cy; assumption]).
    Qed.

    Lemma prime_crema_dir_sparse_eq r :
      (r < n + n)%nat -> (forall i j, (i < n)%nat -> (j < n)%nat -> s_out i <> 0 \/ s_in j <> 0 -> beta i + beta (j + n)%nat <> 0) ->
      exists F, loglikelihood_prime_crema_directed n s_out s_in es nzo nzi beta = Some F /\
        loglikelihood_prime_crema_directed_sparse n s_out s_in x y nzo nzi beta r = Fin (F r).
    Proof.
      intros Hr Hb. rewrite (prime_crema_dir_eq n s_out s_in es nzo nzi Ho Hi).
      destruct (prime_crema_some (n + n) (cat n s_out s_in) (sh n es) beta (proj2 (sh_dom n es beta) HD)) as (F & E & O).
      exists F. split; [exact E|]. rewrite O, (proj2 (Nat.ltb_lt r (n + n)) Hr).
      unfold loglikelihood_prime_crema_directed_sparse, cat. destruct (Nat.ltb_spec r n) as [Hl|Hl].
      - rewrite cE_out by exact Hl. destruct (memb_spec r nzo) as [M|M].
        + cbv zeta. assert (Hs : s_out r <> 0) by (apply Ho; exact M).
          assert (A : forall j, (j < n)%nat -> fquo (fdiv (x r * y j) (1 + x r * y j)) (Fin (beta r + beta (j + n)%nat))
             = Fin (x r * y j / (1 + x r * y j) / (beta r + beta (j + n)%nat))).
          { intros j Hj. rewrite fdiv_fin by (apply dp_ne; assumption). cbn [fquo]. apply fdiv_fin. apply Hb; auto. }
          rewrite (fsum_fin n _ (fun j => x r * y j / (1 + x r * y j) / (beta r + beta (j + n)%nat))) by exact A. rewrite (A r Hl).
          cbn [fsub fadd fopp]. f_equal.
          rewrite (rsum_ext n (fun j => p r j / (beta r + beta (j + n)%nat)) (fun j => if Nat.eqb r j then 0 else x r * y j / (1 + x r * y j) / (beta r + beta (j + n)%nat))).
          * rewrite <- (rsum_minus_own n _ r Hl). ring.
          * intros j Hj. destruct (Nat.eqb_spec r j) as [->|Hn]; [rewrite p_diag; unfold Rdiv; ring|rewrite p_off by exact Hn; reflexivity].
        + f_equal. assert (Z : s_out r = 0).
          { destruct (Req_EM_T (s_out r) 0) as [Z|Z]; [exact Z|]. exfalso. apply M, Ho. split; assumption. }
          assert (Zx : x r = 0).
          { destruct (Req_EM_T (x r) 0) as [Zx|Zx]; [exact Zx|]. exfalso. apply (proj1 (Cx r Hl) Zx Z). }
          rewrite Z, rsum_zero; [ring|]. intros j Hj. rewrite (p_zero_x r j Zx). unfold Rdiv. ring.
      - set (k := (r - n)%nat). assert (Hk : (k < n)%nat) by (unfold k; lia). replace r with (k + n)%nat by (unfold k; lia).
        rewrite cE_in by exact Hk. destruct (memb_spec k nzi) as [M|M].
        + cbv zeta. assert (Hs : s_in k <> 0) by (apply Hi; exact M).
          assert (A : forall i, (i < n)%nat -> fquo (fdiv (x i * y k) (1 + x i * y k)) (Fin (beta i + beta (k + n)%nat))
             = Fin (x i * y k / (1 + x i * y k) / (beta i + beta (k + n)%nat))).
          { intros i Hi'. rewrite fdiv_fin by (apply dp_ne; assumption). cbn [fquo]. apply fdiv_fin. apply Hb; auto. }
          rewrite (fsum_fin n _ (fun i => x i * y k / (1 + x i * y k) / (beta i + beta (k + n)%nat))) by exact A. rewrite (A k Hk).
          cbn [fsub fadd fopp]. f_equal.
          rewrite (rsum_ext n (fun i => p i k / (beta i + beta (k + n)%nat)) (fun i => if Nat.eqb k i then 0 else x i * y k / (1 + x i * y k) / (beta i + beta (k + n)%nat))).
          * rewrite <- (rsum_minus_own n _ k Hk). ring.
          * intros i Hi'. destruct (Nat.eqb_spec k i) as [->|Hn]; [rewrite p_diag; unfold Rdiv; ring|rewrite p_off by auto; reflexivity].
        + f_equal. assert (Z : s_in k = 0).
          { destruct (Req_EM_T (s_in k) 0) as [Z|Z]; [exact Z|]. exfalso. apply M, Hi. split; assumption. }
          assert (Zx : y k = 0).
          { destruct (Req_EM_T (y k) 0) as [Zx|Zx]; [exact Zx|]. exfalso. apply (proj1 (Cy k Hk) Zx Z). }
          rewrite Z, rsum_zero; [ring|]. intros i Hi'. rewrite (p_zero_y i k Zx). unfold Rdiv. ring.
    Qed.
  End Str.
End DSparse.

(** * Log-density *)
Lemma crema_density_pos es beta v : crema_dom es beta -> 0 < crema_density es beta v.
Proof.
  induction es as [|[[i j] w] es IH]; intros HD; simpl; [lra|].
  apply Rmult_lt_0_compat; [apply Rmult_lt_0_compat|].
  - apply (HD i j w). left; reflexivity.
  - apply exp_pos.
  - apply IH. intros a b u Hin. apply (HD a b u). right; exact Hin.
Qed.
Lemma crema_strength_sum es v k : crema_strength es v k = esum es (fun i j _ => hit i j k * v i j).
Proof.
  unfold esum. induction es as [|[[i j] w] es IH]; [reflexivity|]. simpl. rewrite IH. unfold hit.
  destruct (Nat.eqb i k), (Nat.eqb j k); ring.
Qed.
Lemma ln_crema_density es beta v : crema_dom es beta ->
  ln (crema_density es beta v) = esum es (fun i j _ => ln (beta i + beta j) - (beta i + beta j) * v i j).
Proof.
  unfold esum. induction es as [|[[i j] w] es IH]; intros HD; simpl; [apply ln_1|].
  assert (HD' : crema_dom es beta) by (intros a b u Hin; apply (HD a b u); right; exact Hin).
  pose proof (HD i j w (or_introl eq_refl)). pose proof (crema_density_pos es beta v HD').
  rewrite ln_mult; [|apply Rmult_lt_0_compat; [assumption|apply exp_pos]|assumption].
  rewrite ln_mult by (try assumption; apply exp_pos). rewrite ln_exp, IH by exact HD'. ring.
Qed.
Lemma loglik_crema_logdensity n s es beta v :
  pairs_below n es -> crema_dom es beta -> (forall i j w, In (i, j, w) es -> w = 1) ->
  (forall k, (k < n)%nat -> s k = crema_strength es v k) ->
  loglikelihood_crema_undirected n s es beta = ln (crema_density es beta v).
Proof.
  intros HB HD H1 Hs. rewrite loglik_crema_nf, ln_crema_density by exact HD. unfold cL.
  rewrite (rsum_ext n _ (fun k => esum es (fun i j w => hit i j k * beta k * v i j))).
  - rewrite <- esum_rsum, <- esum_opp, <- esum_plus. apply esum_ext. intros i j w Hin. destruct (HB i j w Hin).
    rewrite rsum_scal_r, rsum_hit by assumption. rewrite (H1 i j w Hin). ring.
  - intros k Hk. rewrite (Hs k Hk), crema_strength_sum, Rmult_comm, <- esum_scal. apply esum_ext. intros. ring.
Qed.

Lemma crema_density_sh n es beta v : crema_density_dir n es beta v = crema_density (sh n es) beta (fun i j => v i (j - n)%nat).
Proof.
  induction es as [|[[i j] w] es IH]; [reflexivity|]. simpl. rewrite IH, plus_n_minus. reflexivity.
Qed.
Lemma crema_strength_sh n es v k : pairs_below n es -> (k < n)%nat ->
  crema_strength (sh n es) (fun i j => v i (j - n)%nat) k = crema_out_strength es v k /\
  crema_strength (sh n es) (fun i j => v i (j - n)%nat) (k + n) = crema_in_strength es v k.
Proof.
  intros HB Hk. induction es as [|[[i j] w] es IH]; [split; reflexivity|]. simpl.
  destruct (HB i j w (or_introl eq_refl)) as [Hi Hj].
  destruct IH as [I1 I2]; [intros a b u Hin; apply (HB a b u); right; exact Hin|]. rewrite I1, I2, plus_n_minus.
  rewrite (proj2 (Nat.eqb_neq (j + n) k)), (proj2 (Nat.eqb_neq i (k + n))) by lia.
  destruct (Nat.eqb_spec (j + n) (k + n)), (Nat.eqb_spec j k); try lia; split; ring.
Qed.
Lemma loglik_crema_dir_logdensity n s_out s_in es nzo nzi beta v :
  nonzero_list n s_out nzo -> nonzero_list n s_in nzi ->
  pairs_below n es -> crema_dir_dom n es beta -> (forall i j w, In (i, j, w) es -> w = 1) ->
  (forall k, (k < n)%nat -> s_out k = crema_out_strength es v k /\ s_in k = crema_in_strength es v k) ->
  loglikelihood_crema_directed n s_out s_in es nzo nzi beta = ln (crema_density_dir n es beta v).
Proof.
  intros Ho Hi HB HD H1 Hs. rewrite (loglik_crema_dir_eq n s_out s_in es nzo nzi Ho Hi), crema_density_sh.
  apply loglik_crema_logdensity.
  - apply sh_below; exact HB.
  - apply sh_dom; exact HD.
  - intros i j w Hin. apply in_sh in Hin. destruct Hin as (j' & _ & Hin). apply (H1 i j' w Hin).
  - intros k Hk. unfold cat. destruct (Nat.ltb_spec k n) as [Hl|Hl].
    + rewrite (proj1 (crema_strength_sh n es v k HB Hl)). apply Hs. exact Hl.
    + replace k with ((k - n) + n)%nat at 2 by lia. rewrite (proj2 (crema_strength_sh n es v (k - n)%nat HB ltac:(lia))). apply Hs. lia.
Qed.
