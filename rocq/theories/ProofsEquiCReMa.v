(** The CReMa functions commute with a renaming of the nodes. *)
From Coq Require Import Reals List Arith Lia Lra Bool Permutation FunctionalExtensionality.
From Coquelicot Require Import Coquelicot.
From Verif Require Import Base SpecDeriv ProofsDeriv SpecGraph ProofsGraph SpecEnsemble ProofsEnsemble.
From Verif Require Import ModelDCM SpecDirected ProofsList ModelDECM ModelCReMa SpecCReMa SpecNetwork SpecSymmetry.
From Verif Require Import ProofsUnique ProofsCReMa ProofsMainCReMa ProofsDirCReMa ProofsECM ProofsRelabel.
Local Open Scope R_scope.
Import ListNotations.

Lemma lsum_perm_any {A : Type} (l l' : list A) f : Permutation l l' -> lsum l f = lsum l' f.
Proof. induction 1; simpl; lra. Qed.

Lemma esum_upair es F : (forall i j w, F i j w = F j i w) -> esum es F = esum (map upair es) F.
Proof.
  intros HS. unfold esum. rewrite lsum_map. apply lsum_ext. intros [[i j] w] _. unfold upair; simpl.
  destruct (Nat.le_ge_cases i j).
  - rewrite Nat.min_l, Nat.max_r by assumption. reflexivity.
  - rewrite Nat.min_r, Nat.max_l by assumption. apply HS.
Qed.
Lemma esum_renamed p es' es F : renamed_pairs p es' es -> (forall i j w, F i j w = F j i w) ->
  esum es' (fun i j w => F (p i) (p j) w) = esum es F.
Proof.
  intros HR HS. rewrite (esum_upair es F HS).
  transitivity (esum (map (rename_edge p) es') F).
  - unfold esum. rewrite lsum_map. reflexivity.
  - rewrite (esum_upair _ F HS), map_map. unfold esum. apply lsum_perm_any. exact HR.
Qed.
Lemma renamed_in p es' es i j w : renamed_pairs p es' es -> In (i, j, w) es' ->
  In (p i, p j, w) es \/ In (p j, p i, w) es.
Proof.
  intros HR H.
  assert (I : In (upair (p i, p j, w)) (map upair es)).
  { eapply Permutation_in; [exact HR|]. apply in_map_iff. exists (i, j, w). split; [reflexivity|exact H]. }
  apply in_map_iff in I. destruct I as ([[a b] v] & E & I). unfold upair in E; simpl in E.
  injection E as E1 E2 ->.
  destruct (Nat.le_ge_cases a b), (Nat.le_ge_cases (p i) (p j));
    rewrite ?(Nat.min_l a b), ?(Nat.max_r a b), ?(Nat.min_r a b), ?(Nat.max_l a b) in * by assumption;
    rewrite ?(Nat.min_l (p i) (p j)), ?(Nat.max_r (p i) (p j)), ?(Nat.min_r (p i) (p j)), ?(Nat.max_l (p i) (p j)) in * by assumption;
    subst; auto.
Qed.

Section U.
Variables (n : nat) (p : nat -> nat) (es' es : topology).
Hypothesis HP : relabelling n p.
Hypothesis HR : renamed_pairs p es' es.
Hypothesis HB : pairs_below n es'.
Variables (beta : nat -> R).
Local Notation ren v := (fun i : nat => v (p i)).

Lemma hit_renamed i j k : (i < n)%nat -> (j < n)%nat -> (k < n)%nat -> hit (p i) (p j) (p k) = hit i j k.
Proof. intros. unfold hit. rewrite !(eqb_relabel n p) by assumption. reflexivity. Qed.
Lemma dom_renamed : crema_dom es beta -> crema_dom es' (ren beta).
Proof.
  intros HD i j w H. destruct (renamed_in p es' es i j w HR H) as [I|I]; pose proof (HD _ _ _ I); lra.
Qed.
Lemma ends_renamed : ends_nonzero es beta -> ends_nonzero es' (ren beta).
Proof.
  intros HD i j w H. destruct (renamed_in p es' es i j w HR H) as [I|I]; destruct (HD _ _ _ I); auto.
Qed.
Lemma cE_renamed k : (k < n)%nat -> cE es' (ren beta) k = cE es beta (p k).
Proof.
  intros Hk. unfold cE. rewrite <- (esum_renamed p es' es _ HR).
  - apply esum_ext. intros i j w H. destruct (HB i j w H). rewrite hit_renamed by assumption. reflexivity.
  - intros i j w. rewrite hit_sym, (Rplus_comm (beta i)). reflexivity.
Qed.
Lemma cH_renamed k l : (k < n)%nat -> (l < n)%nat -> cH es' (ren beta) k l = cH es beta (p k) (p l).
Proof.
  intros Hk Hl. unfold cH. rewrite <- (esum_renamed p es' es _ HR).
  - apply esum_ext. intros i j w H. destruct (HB i j w H). rewrite !hit_renamed by assumption. reflexivity.
  - intros i j w. rewrite (hit_sym i j (p k)), (hit_sym i j (p l)), (Rplus_comm (beta i)). reflexivity.
Qed.

Lemma loglik_crema_equi s :
  loglikelihood_crema_undirected n (ren s) es' (ren beta) = loglikelihood_crema_undirected n s es beta.
Proof.
  rewrite !loglik_crema_nf. unfold cL. f_equal.
  - f_equal. apply (rsum_relabel n p (fun i => s i * beta i) HP).
  - rewrite <- (esum_renamed p es' es _ HR); [reflexivity|].
    intros i j w. rewrite (Rplus_comm (beta i)). reflexivity.
Qed.
Lemma prime_crema_equi s k : crema_dom es beta -> (k < n)%nat ->
  oentry (loglikelihood_prime_crema_undirected n (ren s) es' (ren beta)) k
  = oentry (loglikelihood_prime_crema_undirected n s es beta) (p k).
Proof.
  intros HD Hk.
  destruct (prime_crema_some n (ren s) es' (ren beta) (dom_renamed HD)) as (F' & E' & O').
  destruct (prime_crema_some n s es beta HD) as (F & E & O).
  rewrite E, E'. cbn [oentry]. f_equal. rewrite O, O', cE_renamed by exact Hk.
  rewrite (proj2 (Nat.ltb_lt _ _) Hk), (proj2 (Nat.ltb_lt _ _) (relabelling_lt n p k HP Hk)). reflexivity.
Qed.
Lemma expected_crema_equi k : crema_dom es beta -> (k < n)%nat ->
  oentry (expected_strength_crema_undirected es' (ren beta)) k
  = oentry (expected_strength_crema_undirected es beta) (p k).
Proof.
  intros HD Hk.
  destruct (expected_crema_some es' (ren beta) (dom_renamed HD)) as (F' & E' & O').
  destruct (expected_crema_some es beta HD) as (F & E & O).
  rewrite E, E'. cbn [oentry]. f_equal. rewrite O, O', cE_renamed by exact Hk. reflexivity.
Qed.
Lemma diag_crema_equi k : crema_dom es beta -> (k < n)%nat ->
  oentry (loglikelihood_hessian_diag_crema_undirected es' (ren beta)) k
  = oentry (loglikelihood_hessian_diag_crema_undirected es beta) (p k).
Proof.
  intros HD Hk.
  destruct (diag_crema_some es' (ren beta) (dom_renamed HD)) as (F' & E' & O').
  destruct (diag_crema_some es beta HD) as (F & E & O).
  rewrite E, E'. cbn [oentry]. f_equal. rewrite O, O'.
  rewrite <- (esum_renamed p es' es _ HR).
  - apply esum_ext. intros i j w H. destruct (HB i j w H). rewrite !hit_renamed by assumption. reflexivity.
  - intros i j w. rewrite (hit_sym i j (p k)), (Rplus_comm (beta i)). reflexivity.
Qed.
Lemma hessian_crema_equi k l : crema_dom es beta -> simple_pairs es' -> simple_pairs es -> (k < n)%nat -> (l < n)%nat ->
  oentry2 (loglikelihood_hessian_crema_undirected es' (ren beta)) k l
  = oentry2 (loglikelihood_hessian_crema_undirected es beta) (p k) (p l).
Proof.
  intros HD S' S Hk Hl.
  destruct (hessian_crema_some es' (ren beta) (dom_renamed HD) S') as (F' & E' & O').
  destruct (hessian_crema_some es beta HD S) as (F & E & O).
  rewrite E, E'. cbn [oentry2]. f_equal. rewrite O, O'. apply cH_renamed; assumption.
Qed.
Lemma iterative_crema_equi s k : crema_dom es beta -> ends_nonzero es beta -> (k < n)%nat ->
  oentry (iterative_crema_undirected n (ren s) es' (ren beta)) k
  = oentry (iterative_crema_undirected n s es beta) (p k).
Proof.
  intros HD HN Hk.
  destruct (iterative_crema_some n (ren s) es' (ren beta) (dom_renamed HD) (ends_renamed HN)) as (F' & E' & O').
  destruct (iterative_crema_some n s es beta HD HN) as (F & E & O).
  rewrite E, E'. cbn [oentry]. f_equal.
  rewrite O, O', cE_renamed by (try exact Hk; apply relabelling_lt; assumption). reflexivity.
Qed.
End U.

(** The pairs above the diagonal of a renamed symmetric matrix. *)
Lemma triu_renamed n p (m : nat -> nat -> R) :
  relabelling n p -> (forall i j, m i j = m j i) ->
  renamed_pairs p (triu_edges n (fun i j => m (p i) (p j))) (triu_edges n m).
Proof.
  intros HP HS. unfold renamed_pairs.
  assert (U : forall i j w, (i <= j)%nat -> upair (i, j, w) = (i, j, w)).
  { intros i j w H. unfold upair; simpl. rewrite Nat.min_l, Nat.max_r by exact H. reflexivity. }
  apply NoDup_Permutation.
  - apply NoDup_map_inj_in; [apply NoDup_triu|].
    intros [[a b] v] [[c d] u] H1 H2 E. apply in_triu in H1, H2.
    unfold upair, rename_edge in E; simpl in E. injection E as E1 E2 E3.
    assert (Q : (p a = p c /\ p b = p d) \/ (p a = p d /\ p b = p c)) by lia.
    destruct H1 as (H1 & -> & _), H2 as (H2 & -> & _).
    destruct Q as [[Q1 Q2]|[Q1 Q2]]; apply (proj2 HP) in Q1; try lia; apply (proj2 HP) in Q2; try lia; subst.
    + reflexivity.
    + assert (c = d) by lia. subst. reflexivity.
  - apply NoDup_map_inj_in; [apply NoDup_triu|].
    intros [[a b] v] [[c d] u] H1 H2 E. apply in_triu in H1, H2. rewrite !U in E by lia. exact E.
  - intros [[a b] v]. rewrite !in_map_iff. split.
    + intros ([[c d] u] & E & H). apply in_triu in H. destruct H as (H & -> & N).
      unfold rename_edge in E; simpl in E.
      assert (p c < n /\ p d < n)%nat by (split; apply HP; lia).
      destruct (Nat.le_ge_cases (p c) (p d)) as [L|L].
      * exists (p c, p d, m (p c) (p d)). split; [exact E|]. apply in_triu. repeat split; auto; lia.
      * exists (p d, p c, m (p d) (p c)). split.
        -- rewrite <- E. unfold upair; simpl. rewrite Nat.min_comm, Nat.max_comm, HS. reflexivity.
        -- apply in_triu. repeat split; auto; try lia. rewrite HS. exact N.
    + intros ([[c d] u] & E & H). apply in_triu in H. destruct H as (H & -> & N). rewrite U in E by lia.
      injection E as <- <- <-.
      assert (P : forall v, (v < n)%nat -> exists i, (i < n)%nat /\ p i = v).
      { intros q Hq. assert (I : In q (map p (seq 0 n))).
        { eapply Permutation_in; [apply Permutation_sym, relabelling_perm, HP|]. apply in_seq. lia. }
        apply in_map_iff in I. destruct I as (i & Ei & Hi). apply in_seq in Hi. exists i. split; [lia|exact Ei]. }
      destruct (P c) as (i & Hi & <-); [lia|]. destruct (P d) as (j & Hj & <-); [lia|].
      destruct (Nat.le_ge_cases i j).
      * exists (i, j, m (p i) (p j)). split; [apply U; lia|]. apply in_triu. repeat split; auto; lia.
      * exists (j, i, m (p j) (p i)). split.
        -- unfold rename_edge, upair; simpl. rewrite Nat.min_r, Nat.max_l, HS by lia. reflexivity.
        -- apply in_triu. repeat split; auto; try lia. rewrite HS. exact N.
Qed.

(** * Directed *)
Section D.
Variables (n : nat) (p : nat -> nat) (es' es : topology).
Hypothesis HP : relabelling n p.
Hypothesis HR : renamed_arcs p es' es.
Hypothesis HB : pairs_below n es'.
Hypothesis HBs : pairs_below n es.
Local Notation ren v := (fun i : nat => v (p i)).
Local Notation renb v := (fun r : nat => v (lift n p r)).

Lemma lift_relabelling : relabelling (n + n) (lift n p).
Proof.
  assert (S : forall r, (r < n + n)%nat -> exists i, (i < n)%nat /\
     ((r = i /\ lift n p r = p i) \/ (r = (i + n)%nat /\ lift n p r = (p i + n)%nat))).
  { intros r Hr. destruct (Nat.lt_ge_cases r n) as [H|H].
    - exists r. split; [exact H|]. left. split; [reflexivity|apply lift0; exact H].
    - exists (r - n)%nat. split; [lia|]. right. split; [lia|].
      replace r with (r - n + n)%nat at 1 by lia. apply lift1. lia. }
  split.
  - intros r Hr. destruct (S r Hr) as (i & Hi & [[-> ->]|[-> ->]]); pose proof (relabelling_lt n p i HP Hi); lia.
  - intros r t Hr Ht E.
    destruct (S r Hr) as (i & Hi & Ci). destruct (S t Ht) as (j & Hj & Cj).
    pose proof (relabelling_lt n p i HP Hi). pose proof (relabelling_lt n p j HP Hj).
    assert (i = j) by (apply (proj2 HP); [exact Hi|exact Hj|destruct Ci as [[_ Ci]|[_ Ci]], Cj as [[_ Cj]|[_ Cj]]; lia]).
    subst j. destruct Ci as [[-> Ci]|[-> Ci]], Cj as [[-> Cj]|[-> Cj]]; lia.
Qed.

Lemma sh_renamed : renamed_pairs (lift n p) (sh n es') (sh n es).
Proof.
  unfold renamed_pairs. rewrite <- (map_map (rename_edge (lift n p)) upair). apply Permutation_map.
  replace (map (rename_edge (lift n p)) (sh n es')) with (sh n (map (rename_edge p) es')).
  - unfold sh. apply Permutation_map. exact HR.
  - unfold sh. rewrite !map_map. apply map_ext_in. intros [[i j] w] H. destruct (HB i j w H).
    unfold rename_edge; simpl. rewrite lift0, lift1 by assumption. reflexivity.
Qed.

Lemma cat_renamed a b r : (r < n + n)%nat -> cat n (ren a) (ren b) r = cat n a b (lift n p r).
Proof.
  intros Hr. destruct (Nat.lt_ge_cases r n) as [H|H].
  - rewrite lift0 by exact H. unfold cat.
    rewrite (proj2 (Nat.ltb_lt _ _) H), (proj2 (Nat.ltb_lt _ _) (relabelling_lt n p r HP H)). reflexivity.
  - replace r with (r - n + n)%nat by lia. rewrite lift1 by lia. unfold cat. rewrite !ltb_plus_n, !plus_n_minus. reflexivity.
Qed.

Variables (s_out s_in : nat -> R) (nzo nzi nzo' nzi' : list nat) (beta : nat -> R).
Hypothesis Ho : nonzero_list n s_out nzo.
Hypothesis Hi : nonzero_list n s_in nzi.
Hypothesis Ho' : nonzero_list n (ren s_out) nzo'.
Hypothesis Hi' : nonzero_list n (ren s_in) nzi'.

Lemma loglik_crema_dir_equi :
  loglikelihood_crema_directed n (ren s_out) (ren s_in) es' nzo' nzi' (renb beta)
  = loglikelihood_crema_directed n s_out s_in es nzo nzi beta.
Proof.
  rewrite (loglik_crema_dir_eq n _ _ es' nzo' nzi' Ho' Hi'), (loglik_crema_dir_eq n _ _ es nzo nzi Ho Hi).
  rewrite <- (loglik_crema_equi (n + n) (lift n p) (sh n es') (sh n es) lift_relabelling sh_renamed beta).
  rewrite !loglik_crema_nf. unfold cL. f_equal. f_equal. apply rsum_ext. intros r Hr.
  rewrite cat_renamed by exact Hr. reflexivity.
Qed.
Lemma prime_crema_dir_equi r : crema_dir_dom n es beta -> (r < 2 * n)%nat ->
  oentry (loglikelihood_prime_crema_directed n (ren s_out) (ren s_in) es' nzo' nzi' (renb beta)) r
  = oentry (loglikelihood_prime_crema_directed n s_out s_in es nzo nzi beta) (lift n p r).
Proof.
  intros HD Hr. assert (Hr2 : (r < n + n)%nat) by lia.
  rewrite (prime_crema_dir_eq n _ _ es' nzo' nzi' Ho' Hi'), (prime_crema_dir_eq n _ _ es nzo nzi Ho Hi).
  apply sh_dom in HD.
  rewrite <- (prime_crema_equi (n + n) (lift n p) (sh n es') (sh n es) lift_relabelling sh_renamed (sh_below n es' HB) beta _ r HD Hr2).
  destruct (prime_crema_some (n + n) (cat n (ren s_out) (ren s_in)) (sh n es') (renb beta)
     (dom_renamed (lift n p) (sh n es') (sh n es) sh_renamed beta HD)) as (F & E & O).
  destruct (prime_crema_some (n + n) (renb (cat n s_out s_in)) (sh n es') (renb beta)
     (dom_renamed (lift n p) (sh n es') (sh n es) sh_renamed beta HD)) as (G & E2 & O2).
  rewrite E. cbn [oentry]. etransitivity; [|symmetry; exact (f_equal (fun f => oentry f r) E2)]. cbn [oentry].
  rewrite O, O2, cat_renamed by exact Hr2. reflexivity.
Qed.
Lemma diag_crema_dir_equi r : crema_dir_dom n es beta -> (r < 2 * n)%nat ->
  oentry (loglikelihood_hessian_diag_crema_directed n es' (renb beta)) r
  = oentry (loglikelihood_hessian_diag_crema_directed n es beta) (lift n p r).
Proof.
  intros HD Hr. rewrite !diag_crema_dir_eq. apply sh_dom in HD.
  apply (diag_crema_equi (n + n) (lift n p) (sh n es') (sh n es) lift_relabelling sh_renamed (sh_below n es' HB)); [exact HD|lia].
Qed.
Lemma hessian_crema_dir_equi r t : crema_dir_dom n es beta -> simple_arcs es' -> simple_arcs es ->
  (r < 2 * n)%nat -> (t < 2 * n)%nat ->
  oentry2 (loglikelihood_hessian_crema_directed n es' (renb beta)) r t
  = oentry2 (loglikelihood_hessian_crema_directed n es beta) (lift n p r) (lift n p t).
Proof.
  intros HD S' S Hr Ht. rewrite (hessian_crema_dir_eq n es' HB), (hessian_crema_dir_eq n es HBs). apply sh_dom in HD.
  apply (hessian_crema_equi (n + n) (lift n p) (sh n es') (sh n es) lift_relabelling sh_renamed (sh_below n es' HB));
    [exact HD|apply sh_simple; assumption|apply sh_simple; assumption|lia|lia].
Qed.
Lemma iterative_crema_dir_equi r : crema_dir_dom n es beta -> ends_nonzero_dir n es beta -> (r < 2 * n)%nat ->
  oentry (iterative_crema_directed n (ren s_out) (ren s_in) es' nzo' nzi' (renb beta)) r
  = oentry (iterative_crema_directed n s_out s_in es nzo nzi beta) (lift n p r).
Proof.
  intros HD HN Hr. assert (Hr2 : (r < n + n)%nat) by lia.
  rewrite (iterative_crema_dir_eq n _ _ es' nzo' nzi' Ho' Hi'), (iterative_crema_dir_eq n _ _ es nzo nzi Ho Hi).
  apply sh_dom in HD. apply sh_ends in HN.
  rewrite <- (iterative_crema_equi (n + n) (lift n p) (sh n es') (sh n es) lift_relabelling sh_renamed (sh_below n es' HB) beta _ r HD HN Hr2).
  destruct (iterative_crema_some (n + n) (cat n (ren s_out) (ren s_in)) (sh n es') (renb beta)
     (dom_renamed (lift n p) (sh n es') (sh n es) sh_renamed beta HD)
     (ends_renamed (lift n p) (sh n es') (sh n es) sh_renamed beta HN)) as (F & E & O).
  destruct (iterative_crema_some (n + n) (renb (cat n s_out s_in)) (sh n es') (renb beta)
     (dom_renamed (lift n p) (sh n es') (sh n es) sh_renamed beta HD)
     (ends_renamed (lift n p) (sh n es') (sh n es) sh_renamed beta HN)) as (G & E2 & O2).
  rewrite E. cbn [oentry]. etransitivity; [|symmetry; exact (f_equal (fun f => oentry f r) E2)]. cbn [oentry].
  rewrite O, O2, cat_renamed by exact Hr2. reflexivity.
Qed.
Lemma renb_dir_dom : crema_dir_dom n es beta -> crema_dir_dom n es' (renb beta).
Proof.
  intros HD i j w H. destruct (HB i j w H). rewrite lift0, lift1 by assumption.
  apply (HD (p i) (p j) w). eapply Permutation_in; [exact HR|]. apply in_map_iff. exists (i, j, w). auto.
Qed.
Lemma expected_crema_dir_equi i : crema_dir_dom n es beta -> (i < n)%nat ->
  oentry (expected_out_strength_crema_directed n es' (renb beta)) i
    = oentry (expected_out_strength_crema_directed n es beta) (p i) /\
  oentry (expected_in_strength_crema_directed n es' (renb beta)) i
    = oentry (expected_in_strength_crema_directed n es beta) (p i).
Proof.
  intros HD Hin. pose proof (relabelling_lt n p i HP Hin) as Hpi.
  destruct (expected_out_crema_dir n es beta HD) as (A & EA & OA).
  destruct (expected_in_crema_dir n es HBs beta HD) as (B & EB & OB).
  destruct (expected_out_crema_dir n es' (renb beta) (renb_dir_dom HD)) as (C & EC & OC).
  destruct (expected_in_crema_dir n es' HB (renb beta) (renb_dir_dom HD)) as (D & ED & OD).
  rewrite EA, EB, EC, ED. cbn [oentry]. rewrite OA, OB, OC, OD by assumption.
  rewrite !(cE_renamed (n + n) (lift n p) (sh n es') (sh n es) lift_relabelling sh_renamed (sh_below n es' HB)) by lia.
  rewrite lift0, lift1 by exact Hin. auto.
Qed.
End D.

(** All ordered pairs of a renamed matrix. *)
Lemma all_renamed n p (m : nat -> nat -> R) : relabelling n p ->
  renamed_arcs p (all_edges n (fun i j => m (p i) (p j))) (all_edges n m).
Proof.
  intros HP. unfold renamed_arcs. apply NoDup_Permutation.
  - apply NoDup_map_inj_in; [apply NoDup_all|].
    intros [[a b] v] [[c d] u] H1 H2 E. apply in_all in H1, H2. unfold rename_edge in E; simpl in E.
    injection E as E1 E2 E3. destruct H1 as (? & ? & _), H2 as (? & ? & _).
    apply (proj2 HP) in E1; try assumption. apply (proj2 HP) in E2; try assumption. subst. reflexivity.
  - apply NoDup_all.
  - intros [[a b] v]. rewrite in_map_iff. split.
    + intros ([[c d] u] & E & H). apply in_all in H. destruct H as (H1 & H2 & -> & N). unfold rename_edge in E; simpl in E.
      injection E as <- <- <-. apply in_all. repeat split; auto; apply HP; assumption.
    + intros H. apply in_all in H. destruct H as (H1 & H2 & -> & N).
      assert (P : forall v, (v < n)%nat -> exists i, (i < n)%nat /\ p i = v).
      { intros q Hq. assert (I : In q (map p (seq 0 n))).
        { eapply Permutation_in; [apply Permutation_sym, relabelling_perm, HP|]. apply in_seq. lia. }
        apply in_map_iff in I. destruct I as (i & Ei & Hi). apply in_seq in Hi. exists i. split; [lia|exact Ei]. }
      destruct (P a H1) as (i & Hi & <-). destruct (P b H2) as (j & Hj & <-).
      exists (i, j, m (p i) (p j)). split; [reflexivity|]. apply in_all. auto.
Qed.

(** A renaming that keeps the pairs and the strengths keeps the mean weights. *)
Lemma alike_crema n s es beta p : relabelling n p -> renamed_pairs p es es ->
  pairs_below n es -> nonneg_weights es -> crema_dom es beta ->
  (exists E, expected_strength_crema_undirected es beta = Some E /\ forall k, (k < n)%nat -> E k = s k) ->
  (forall i, (i < n)%nat -> s (p i) = s i) ->
  forall i j w, In (i, j, w) es -> w <> 0 -> / (beta (p i) + beta (p j)) = / (beta i + beta j).
Proof.
  intros HP HR HB HW HD HE HS. pose proof (dom_renamed p es es HR beta HD) as HD'.
  apply (solution_crema_unique n s es beta (fun i => beta (p i)) HB HW HD HD' HE).
  destruct HE as (E & EE & HE).
  destruct (expected_crema_some es (fun i => beta (p i)) HD') as (F & EF & _).
  exists F. split; [exact EF|]. intros k Hk.
  pose proof (expected_crema_equi n p es es HP HR HB beta k HD Hk) as Q.
  rewrite EE in Q. pose proof (eq_trans (eq_sym (f_equal (fun f => oentry f k) EF)) Q) as Q2.
  cbn [oentry] in Q2. injection Q2 as ->. rewrite HE, HS by (try exact Hk; apply relabelling_lt; assumption). reflexivity.
Qed.
Lemma alike_crema_dir n s_out s_in es beta p : relabelling n p -> renamed_arcs p es es ->
  pairs_below n es -> nonneg_weights es -> crema_dir_dom n es beta ->
  (exists EO EI, expected_out_strength_crema_directed n es beta = Some EO /\
     expected_in_strength_crema_directed n es beta = Some EI /\ forall i, (i < n)%nat -> EO i = s_out i /\ EI i = s_in i) ->
  (forall i, (i < n)%nat -> s_out (p i) = s_out i /\ s_in (p i) = s_in i) ->
  forall i j w, In (i, j, w) es -> w <> 0 -> / (beta (p i) + beta (p j + n)%nat) = / (beta i + beta (j + n)%nat).
Proof.
  intros HP HR HB HW HD HE HS i j w Hin Hw.
  pose proof (renb_dir_dom n p es es HR HB beta HD) as HD'.
  destruct (HB i j w Hin) as [Hi Hj].
  rewrite <- (lift0 n p i Hi), <- (lift1 n p j Hj).
  apply (solution_crema_dir_unique n s_out s_in es beta (fun r => beta (lift n p r)) HB HW HD HD' HE) with (w := w); [|exact Hin|exact Hw].
  destruct HE as (EO & EI & EEO & EEI & HE).
  destruct (expected_out_crema_dir n es _ HD') as (F & EF & _).
  destruct (expected_in_crema_dir n es HB _ HD') as (G & EG & _).
  exists F, G. split; [exact EF|]. split; [exact EG|]. intros k Hk.
  destruct (expected_crema_dir_equi n p es es HP HR HB HB beta k HD Hk) as [Q1 Q2].
  rewrite EEO in Q1. rewrite EEI in Q2.
  pose proof (eq_trans (eq_sym (f_equal (fun f => oentry f k) EF)) Q1) as Q3.
  pose proof (eq_trans (eq_sym (f_equal (fun f => oentry f k) EG)) Q2) as Q4.
  cbn [oentry] in Q3, Q4. injection Q3 as ->. injection Q4 as ->.
  destruct (HE (p k) (relabelling_lt n p k HP Hk)) as [-> ->]. apply HS. exact Hk.
Qed.
