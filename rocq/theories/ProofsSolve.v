(** Norms, CReMa means, and the structure of a call: used for both kinds of graph. *)
From Coq Require Import Reals List Arith Lra Lia Bool String.
From Coquelicot Require Import Coquelicot.
From Verif Require Import Base SpecDeriv ProofsGraph ProofsEnsemble ProofsList SpecGraph SpecDirected SpecCReMa SpecEnsemble SpecSolve ModelCM ModelDCM ModelDECM ModelCReMa ModelDispatch ModelSolve
  ProofsCM ProofsMainCM ProofsCReMa ProofsMainCReMa ProofsSparseCReMa ProofsDirCReMa ProofsDirSparseCReMa WitnessCReMa.
Local Open Scope R_scope.
Import ListNotations.

(** * Norms *)
Lemma fold_max_ge (l : list R) v : In v l -> v <= fold_right Rmax 0 l.
Proof. induction l as [|a l IH]; intros []; simpl; [subst; apply Rmax_l|eapply Rle_trans; [apply IH; assumption|apply Rmax_r]]. Qed.
Lemma fold_max_in (l : list R) : l <> [] -> (forall v, In v l -> 0 <= v) -> In (fold_right Rmax 0 l) l.
Proof.
  induction l as [|a l IH]; intros Hn Hp; [congruence|]. simpl. destruct l as [|b l].
  - left. simpl. rewrite Rmax_left; [reflexivity|apply Hp; left; reflexivity].
  - destruct (Rle_dec a (fold_right Rmax 0 (b :: l))) as [H|H].
    + rewrite Rmax_right by exact H. right. apply IH; [discriminate|intros; apply Hp; right; assumption].
    + rewrite Rmax_left by lra. left. reflexivity.
Qed.
Lemma inf_norm_sup m ex ob : (0 < m)%nat -> sup_dev m ex ob (inf_norm m ex ob).
Proof.
  intros Hm. unfold inf_norm. split.
  - intros i Hi. apply fold_max_ge. apply in_map_iff. exists i. split; [reflexivity|apply in_seq; lia].
  - assert (H : In (fold_right Rmax 0 (map (fun i => Rabs (ex i - ob i)) (seq 0 m))) (map (fun i => Rabs (ex i - ob i)) (seq 0 m))).
    { apply fold_max_in.
      - destruct m; [lia|]. discriminate.
      - intros v Hv. apply in_map_iff in Hv. destruct Hv as (i & <- & _). apply Rabs_pos. }
    apply in_map_iff in H. destruct H as (i & E & Hi). exists i. apply in_seq in Hi. split; [lia|]. symmetry. exact E.
Qed.
Lemma sup_dev_ext m ex ob ex' ob' e : (forall i, (i < m)%nat -> ex i = ex' i) -> (forall i, (i < m)%nat -> ob i = ob' i) ->
  sup_dev m ex ob e -> sup_dev m ex' ob' e.
Proof.
  intros H1 H2 [H3 (i & Hi & He)]. split.
  - intros j Hj. rewrite <- H1, <- H2 by exact Hj. apply H3. exact Hj.
  - exists i. split; [exact Hi|]. rewrite <- H1, <- H2 by exact Hi. exact He.
Qed.
(** The largest deviation determines the number. *)
Lemma sup_dev_unique m ex ob e e' : sup_dev m ex ob e -> sup_dev m ex ob e' -> e = e'.
Proof.
  intros [H1 (i & Hi & E)] [H2 (j & Hj & E')]. apply Rle_antisym.
  - rewrite E. apply H2. exact Hi.
  - rewrite E'. apply H1. exact Hj.
Qed.

(** * CReMa means *)
Lemma hit_triangle n k (F : nat -> nat -> R) : (k < n)%nat ->
  rsum n (fun j => rsum j (fun i => hit i j k * F i j)) =
  rsum n (fun j => if Nat.eqb k j then 0 else F (Nat.min k j) (Nat.max k j)).
Proof.
  intros Hk.
  rewrite <- (rsum_upper n (fun i j => hit i j k * F i j)).
  rewrite (rsum_ext n _ (fun i => (if Nat.eqb i k then rsum n (fun j => if Nat.ltb i j then F i j else 0) else 0) + (if Nat.ltb i k then F i k else 0))).
  - rewrite rsum_plus, (rsum_single n k (fun i => rsum n (fun j => if Nat.ltb i j then F i j else 0)) Hk), <- rsum_plus.
    apply rsum_ext. intros j Hj. destruct (Nat.eqb_spec k j) as [<-|Hne]; [rewrite Nat.ltb_irrefl; ring|].
    destruct (Nat.ltb_spec k j), (Nat.ltb_spec j k); try lia.
    + rewrite Nat.min_l, Nat.max_r by lia. ring.
    + rewrite Nat.min_r, Nat.max_l by lia. ring.
  - intros i Hi. rewrite (rsum_ext n _ (fun j => (if Nat.eqb i k then 1 else 0) * (if Nat.ltb i j then F i j else 0) + (if Nat.eqb j k then (if Nat.ltb i j then F i j else 0) else 0))).
    + rewrite rsum_plus, rsum_scal_l, (rsum_single n k (fun j => if Nat.ltb i j then F i j else 0) Hk). destruct (Nat.eqb i k); ring.
    + intros j Hj. unfold hit. destruct (Nat.ltb i j), (Nat.eqb i k), (Nat.eqb j k); ring.
Qed.
Lemma triu_dom n p beta : hollow p -> positive_rates n p beta -> crema_dom (triu_edges n p) beta.
Proof.
  intros Hh HP i j w Hin. apply in_triu in Hin. destruct Hin as ([H1 H2] & -> & Z). apply HP; [|exact Z].
  destruct (Nat.eq_dec i j) as [->|]; [exfalso; apply Z, Hh|lia].
Qed.
Lemma expected_triu n p beta : hollow p -> positive_rates n p beta ->
  exists E, expected_strength_crema_undirected (triu_edges n p) beta = Some E /\ forall i, (i < n)%nat -> E i = crema_mean n p beta i.
Proof.
  intros Hh HP. destruct (expected_crema_some _ beta (triu_dom n p beta Hh HP)) as (E & E1 & E2). exists E. split; [exact E1|].
  intros k Hk. rewrite E2. unfold cE.
  rewrite (esum_triu_hollow n p (fun i j w => hit i j k * (w / (beta i + beta j)))); [|intros; unfold Rdiv; ring|intros; apply Hh].
  rewrite (hit_triangle n k (fun i j => p i j / (beta i + beta j)) Hk). unfold crema_mean. apply rsum_ext. intros j Hj.
  destruct (Nat.eqb_spec k j) as [|Hne]; [reflexivity|]. destruct (Nat.lt_ge_cases k j).
  - rewrite Nat.min_l, Nat.max_r by lia. reflexivity.
  - rewrite Nat.min_r, Nat.max_l by lia. now rewrite (Rplus_comm (beta j)).
Qed.
Lemma expected_sparse n x beta : (forall i, (i < n)%nat -> 0 <= x i) -> positive_rates n (pmatrix_cm x) beta ->
  exists E, expected_strength_crema_undirected_sparse n x beta = Some E /\ forall i, (i < n)%nat -> E i = crema_mean n (pmatrix_cm x) beta i.
Proof.
  intros Hx HP. assert (Hh : hollow (pmatrix_cm x)) by (intros i; unfold pmatrix_cm; rewrite Nat.ltb_irrefl; reflexivity).
  destruct (expected_triu n _ beta Hh HP) as (E & E1 & E2).
  pose proof (fun k => expected_crema_sparse_eq n x beta Hx (triu_dom n _ beta Hh HP) k) as H. rewrite E1 in H.
  destruct (expected_strength_crema_undirected_sparse n x beta) as [F|]; [|specialize (H O); discriminate].
  exists F. split; [reflexivity|]. intros i Hi. specialize (H i). simpl in H. rewrite <- E2 by exact Hi. congruence.
Qed.
Lemma all_below n p : pairs_below n (all_edges n p).
Proof. intros i j w Hin. apply in_all in Hin. tauto. Qed.
Lemma all_dom n p b : positive_rates_dir n p b (drop n b) -> crema_dir_dom n (all_edges n p) b.
Proof. intros HP i j w Hin. apply in_all in Hin. destruct Hin as (Hi & Hj & -> & Z). apply (HP i j Hi Hj Z). Qed.
Lemma esum_sh_all n p G : (forall i j, G i (j + n)%nat 0 = 0) ->
  esum (sh n (all_edges n p)) G = rsum n (fun i => rsum n (fun j => G i (j + n)%nat (p i j))).
Proof.
  intros H0. unfold esum, sh. rewrite lsum_map. simpl. apply (esum_all n p (fun i j w => G i (j + n)%nat w)). exact H0.
Qed.
Lemma cE_all_out n p b k : (k < n)%nat -> cE (sh n (all_edges n p)) b k = crema_mean_out n p b (drop n b) k.
Proof.
  intros Hk. unfold cE. rewrite (esum_sh_all n p (fun i j w => hit i j k * (w / (b i + b j)))) by (intros; unfold Rdiv; ring).
  unfold crema_mean_out, drop. rewrite <- (rsum_single n k (fun i => rsum n (fun j => p i j / (b i + b (j + n)%nat))) Hk).
  apply rsum_ext. intros i Hi. rewrite (rsum_ext n _ (fun j => (if Nat.eqb i k then 1 else 0) * (p i j / (b i + b (j + n)%nat)))).
  - rewrite rsum_scal_l. destruct (Nat.eqb i k); ring.
  - intros j Hj. unfold hit. rewrite (proj2 (Nat.eqb_neq (j + n) k)) by lia. ring.
Qed.
Lemma cE_all_in n p b k : (k < n)%nat -> cE (sh n (all_edges n p)) b (k + n) = crema_mean_in n p b (drop n b) k.
Proof.
  intros Hk. unfold cE. rewrite (esum_sh_all n p (fun i j w => hit i j (k + n) * (w / (b i + b j)))) by (intros; unfold Rdiv; ring).
  unfold crema_mean_in, drop. apply rsum_ext. intros i Hi.
  rewrite <- (rsum_single n k (fun j => p i j / (b i + b (j + n)%nat)) Hk). apply rsum_ext. intros j Hj. unfold hit.
  rewrite (proj2 (Nat.eqb_neq i (k + n))) by lia. destruct (Nat.eqb_spec (j + n) (k + n)), (Nat.eqb_spec j k); try lia; ring.
Qed.
Lemma expected_all n p b : positive_rates_dir n p b (drop n b) ->
  exists EO EI, expected_out_strength_crema_directed n (all_edges n p) b = Some EO /\
    expected_in_strength_crema_directed n (all_edges n p) b = Some EI /\
    forall i, (i < n)%nat -> EO i = crema_mean_out n p b (drop n b) i /\ EI i = crema_mean_in n p b (drop n b) i.
Proof.
  intros HP. pose proof (all_dom n p b HP) as HD.
  destruct (expected_out_crema_dir n _ b HD) as (EO & E1 & E2).
  destruct (expected_in_crema_dir n _ (all_below n p) b HD) as (EI & E3 & E4).
  exists EO, EI. split; [exact E1|]. split; [exact E3|]. intros i Hi. rewrite (E2 i Hi), (E4 i Hi), cE_all_out, cE_all_in by exact Hi.
  split; reflexivity.
Qed.
Lemma expected_dir_sparse n x y b :
  (forall i, (i < n)%nat -> 0 <= x i) -> (forall i, (i < n)%nat -> 0 <= y i) ->
  positive_rates_dir n (dcm_prob x y) b (drop n b) ->
  exists EO EI, expected_out_strength_crema_directed_sparse n x y b = Some EO /\
    expected_in_stregth_crema_directed_sparse n x y b = Some EI /\
    forall i, (i < n)%nat -> EO i = crema_mean_out n (dcm_prob x y) b (drop n b) i /\ EI i = crema_mean_in n (dcm_prob x y) b (drop n b) i.
Proof.
  intros Hx Hy HP. pose proof (all_dom n _ b HP) as HD.
  destruct (expected_all n _ b HP) as (EO & EI & E1 & E2 & E3).
  pose proof (fun k H => proj1 (dir_sparse_expected n x y b k Hx Hy HD H)) as H1.
  pose proof (fun k H => proj2 (dir_sparse_expected n x y b k Hx Hy HD H)) as H2. rewrite E1 in H1. rewrite E2 in H2.
  destruct n as [|n].
  - unfold expected_out_strength_crema_directed_sparse, expected_in_stregth_crema_directed_sparse, oloop.
    do 2 eexists. split; [reflexivity|]. split; [reflexivity|]. intros; lia.
  - destruct (expected_out_strength_crema_directed_sparse (S n) x y b) as [FO|]; [|specialize (H1 O ltac:(lia)); discriminate].
    destruct (expected_in_stregth_crema_directed_sparse (S n) x y b) as [FI|]; [|specialize (H2 O ltac:(lia)); discriminate].
    exists FO, FI. split; [reflexivity|]. split; [reflexivity|]. intros i Hi. specialize (H1 i Hi). specialize (H2 i Hi). simpl in H1, H2.
    destruct (E3 i Hi) as [<- <-]. split; congruence.
Qed.
(** The points of the directed functions are the concatenation of the two arrays. *)
Lemma join2_l n a b i : (i < n)%nat -> join2 n a b i = a i.
Proof. intros H. unfold join2. apply Nat.ltb_lt in H. now rewrite H. Qed.
Lemma join2_r n a b i : join2 n a b (i + n)%nat = b i.
Proof. unfold join2. destruct (Nat.ltb_spec (i + n) n); [lia|]. f_equal. lia. Qed.
Lemma join2_drop n v r : join2 n v (drop n v) r = v r.
Proof. unfold join2, drop. destruct (Nat.ltb_spec r n); [reflexivity|]. f_equal. lia. Qed.

(** * Log-likelihoods *)
Lemma loglik_triu n p s beta : hollow p ->
  loglikelihood_crema_undirected n s (triu_edges n p) beta = crema_loglik n p s beta.
Proof.
  intros Hh. rewrite loglik_crema_nf. unfold cL, crema_loglik.
  rewrite (esum_triu_hollow n p (fun i j w => w * ln (beta i + beta j))); [ring|intros; ring|intros; apply Hh].
Qed.

(** * Running statements *)
Lemma andthen_inv {S : Type} (r : ran S) k o' : andthen r k = (o', None) -> exists o1, r = (o1, None) /\ k o1 = (o', None).
Proof. unfold andthen. destruct r as [o1 [e|]]; simpl; intros H; [discriminate|]. exists o1. auto. Qed.
