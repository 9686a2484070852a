(** Two-node motifs: counts, exact mean and variance. *)
From Coq Require Import Reals List Arith Bool ZArith Lia Lra.
From Verif Require Import Base SpecGraph SpecEnsemble ProofsEnsemble ModelNetwork SpecNetwork ProofsUnique ProofsNetwork ModelMotifs SpecMotifs.
Local Open Scope R_scope.
Import ListNotations.

(** * Counts *)
Lemma loop_count n s (b : nat -> bool) : loop n s (fun j s => if b j then S s else s) = (s + nsum n (fun j => if b j then 1 else 0))%nat.
Proof.
  induction n as [|n IH]; [rewrite loop_0; simpl; lia|]. rewrite loop_S, IH. simpl. destruct (b n); lia.
Qed.
Lemma count_entries_nsum n t test : count_entries n t test = nsum n (fun i => nsum n (fun j => if test (t i j) then 1 else 0))%nat.
Proof.
  unfold count_entries.
  assert (G : forall m s, loop m s (fun i s => loop n s (fun j s => if test (t i j) then S s else s)) =
    (s + nsum m (fun i => nsum n (fun j => if test (t i j) then 1 else 0)))%nat).
  { induction m as [|m IH]; intros s; [rewrite loop_0; simpl; lia|]. rewrite loop_S, IH, (loop_count n _ (fun j => test (t m j))). simpl. lia. }
  rewrite G. reflexivity.
Qed.
Lemma INR_nsum n f : INR (nsum n f) = rsum n (fun i => INR (f i)).
Proof. induction n as [|n IH]; [reflexivity|]. simpl nsum. rewrite plus_INR, IH. reflexivity. Qed.
Lemma INR_count_entries n t test : INR (count_entries n t test) = rsum n (fun i => rsum n (fun j => ind (test (t i j)))).
Proof.
  rewrite count_entries_nsum, INR_nsum. apply rsum_ext. intros i _. rewrite INR_nsum. apply rsum_ext. intros j _. unfold ind. destruct (test (t i j)); reflexivity.
Qed.
Lemma length_filter_flat {A B} (P : B -> bool) (f : A -> list B) l :
  length (filter P (flat_map f l)) = list_sum (map (fun x => length (filter P (f x))) l).
Proof. induction l as [|x l IH]; [reflexivity|]. simpl. rewrite filter_app, app_length, IH. reflexivity. Qed.
Lemma INR_list_sum_seq n f : INR (list_sum (map f (seq 0 n))) = rsum n (fun i => INR (f i)).
Proof. rewrite <- nsum_list. apply INR_nsum. Qed.
Lemma INR_filter_seq n (b : nat -> bool) : INR (length (filter b (seq 0 n))) = rsum n (fun i => ind (b i)).
Proof.
  change (length (filter b (seq 0 n))) with (count b (seq 0 n)). rewrite <- nsum_count, INR_nsum. apply rsum_ext. intros i _. unfold ind. destruct (b i); reflexivity.
Qed.
Lemma filter_map_length {A B} (P : B -> bool) (f : A -> B) l : length (filter P (map f l)) = length (filter (fun a => P (f a)) l).
Proof. induction l as [|a l IH]; [reflexivity|]. simpl. destruct (P (f a)); simpl; rewrite IH; reflexivity. Qed.
Lemma INR_pairs_with n P : INR (pairs_with n P) = usum n (fun i j => ind (P i j)).
Proof.
  unfold pairs_with, usum. rewrite length_filter_flat, INR_list_sum_seq. apply rsum_ext. intros j _.
  rewrite filter_map_length. simpl. apply INR_filter_seq.
Qed.

Lemma equalsb_refl v : equalsb v v = true. Proof. unfold equalsb. destruct (Req_EM_T v v); congruence. Qed.
Lemma equalsb_neq v r : r <> v -> equalsb v r = false. Proof. intros H. unfold equalsb. destruct (Req_EM_T r v); congruence. Qed.
Lemma ind_sum_2 a b : equalsb 2 (ind a + ind b) = a && b.
Proof. destruct a, b; simpl; [replace (1 + 1) with 2 by ring; apply equalsb_refl| | |]; apply equalsb_neq; lra. Qed.
Lemma ind_sum_1 a b : equalsb 1 (ind a + ind b) = xorb a b.
Proof. destruct a, b; simpl; [apply equalsb_neq; lra| | |apply equalsb_neq; lra]; [rewrite Rplus_0_r|rewrite Rplus_0_l]; apply equalsb_refl. Qed.
Lemma ind_sum_0 a b : negb (equalsb 0 (ind a + ind b)) = a || b.
Proof. destruct a, b; simpl; try (rewrite equalsb_neq by lra; reflexivity). rewrite Rplus_0_l, equalsb_refl. reflexivity. Qed.

Lemma entries_offdiag n g a test (b : nat -> nat -> bool) : matrix_of n g a -> loopless n g ->
  (forall u v, test (ind u + ind v) = test (ind v + ind u)) -> test 0 = false ->
  (forall i j, test (ind (g i j) + ind (g j i)) = b i j) ->
  count_entries n (plus_transpose a) test = (2 * pairs_with n b)%nat.
Proof.
  intros HM HL HS H0 HB. apply INR_eq. rewrite INR_count_entries, mult_INR, INR_pairs_with. replace (INR 2) with 2 by (simpl; ring).
  rewrite <- (rsum_offdiag_sym n (fun i j => ind (b i j))).
  - apply rsum_ext. intros i Hi. apply rsum_ext. intros j Hj. unfold plus_transpose. rewrite !HM by assumption.
    destruct (Nat.eqb_spec i j) as [<-|NE]; [|rewrite HB; reflexivity]. rewrite (HL i Hi). simpl. rewrite Rplus_0_r, H0. reflexivity.
  - intros i j. rewrite <- !HB, HS. reflexivity.
Qed.
Lemma count_2_meaning n g a : matrix_of n g a -> loopless n g -> count_2motif_2 n a = (2 * pairs_with n (full_dyad g))%nat.
Proof.
  intros HM HL. apply (entries_offdiag n g); try assumption; [intros; rewrite !ind_sum_2; apply andb_comm|apply equalsb_neq; lra|intros; apply ind_sum_2].
Qed.
Lemma count_1_meaning n g a : matrix_of n g a -> loopless n g -> count_2motif_1 n a = pairs_with n (single_dyad g).
Proof.
  intros HM HL. unfold count_2motif_1. rewrite (entries_offdiag n g a (equalsb 1) (single_dyad g)); try assumption;
    [rewrite Nat.mul_comm; apply Nat.div_mul; discriminate|intros; rewrite !ind_sum_1; apply xorb_comm|apply equalsb_neq; lra|intros; apply ind_sum_1].
Qed.
Lemma pairs_total n P Q : (forall i j, P i j = negb (Q i j)) -> (2 * pairs_with n P + 2 * pairs_with n Q = n * n - n)%nat.
Proof.
  intros E. apply INR_eq. rewrite minus_INR by nia. rewrite plus_INR, !mult_INR, !INR_pairs_with, <- Rmult_plus_distr_l, <- usum_plus. replace (INR 2) with 2 by (simpl; ring).
  rewrite (usum_ext n _ (fun _ _ => 1)) by (intros; rewrite E; destruct (Q i j); simpl; ring).
  rewrite <- (rsum_offdiag_sym n (fun _ _ => 1)) by reflexivity.
  rewrite (rsum_ext n _ (fun i => INR n - 1)); [rewrite rsum_const; ring|].
  intros i Hi. transitivity (rsum n (fun j => 1 - (if Nat.eqb j i then 1 else 0))).
  - apply rsum_ext. intros j _. rewrite Nat.eqb_sym. destruct (Nat.eqb j i); ring.
  - rewrite rsum_minus, rsum_const, (rsum_single n i (fun _ => 1) Hi). ring.
Qed.
Lemma count_0_meaning n g a k : matrix_of n g a -> loopless n g -> k = KNdarray \/ k = KCsrArray ->
  count_2motif_0 k n a = Some (Z.of_nat (2 * pairs_with n (empty_dyad g))).
Proof.
  intros HM HL HK. unfold count_2motif_0.
  rewrite (entries_offdiag n g a (fun r => negb (equalsb 0 r)) (fun i j => g i j || g j i)); try assumption;
    [|intros; rewrite !ind_sum_0; apply orb_comm|rewrite equalsb_refl; reflexivity|intros; apply ind_sum_0].
  pose proof (pairs_total n (empty_dyad g) (fun i j => g i j || g j i) ltac:(intros; unfold empty_dyad; rewrite negb_orb; reflexivity)) as HT.
  replace (Z.of_nat n * (Z.of_nat n - 1) - Z.of_nat (2 * pairs_with n (fun i j => g i j || g j i)))%Z with (Z.of_nat (2 * pairs_with n (empty_dyad g))) by nia.
  destruct HK as [-> | ->]; reflexivity.
Qed.
Lemma dyad_identity n g a : matrix_of n g a -> loopless n g -> exists c0, count_2motif_0 KNdarray n a = Some c0 /\
  (Z.of_nat (count_2motif_2 n a) + 2 * Z.of_nat (count_2motif_1 n a) + c0 = Z.of_nat n * (Z.of_nat n - 1))%Z.
Proof.
  intros HM HL. eexists. split; [apply (count_0_meaning n g); auto|]. rewrite (count_2_meaning n g), (count_1_meaning n g) by assumption.
  assert (E : (pairs_with n (full_dyad g) + pairs_with n (single_dyad g) = pairs_with n (fun i j => g i j || g j i))%nat).
  { apply INR_eq. rewrite plus_INR, !INR_pairs_with, <- usum_plus. apply usum_ext. intros i j _ _. unfold full_dyad, single_dyad.
    destruct (g i j), (g j i); simpl; ring. }
  pose proof (pairs_total n (empty_dyad g) (fun i j => g i j || g j i) ltac:(intros; unfold empty_dyad; rewrite negb_orb; reflexivity)). nia.
Qed.
Lemma count_entries_relabel n p t test : relabelling n p -> count_entries n (fun i j => t (p i) (p j)) test = count_entries n t test.
Proof.
  intros HP. rewrite !count_entries_nsum.
  rewrite (nsum_ext n _ (fun i => nsum n (fun j => if test (t (p i) j) then 1 else 0)%nat))
    by (intros i _; exact (nsum_relabel n p (fun j => if test (t (p i) j) then 1 else 0)%nat HP)).
  exact (nsum_relabel n p (fun i => nsum n (fun j => if test (t i j) then 1 else 0))%nat HP).
Qed.
Lemma dyads_relabel n p a k : relabelling n p ->
  count_2motif_2 n (fun i j => a (p i) (p j)) = count_2motif_2 n a /\
  count_2motif_1 n (fun i j => a (p i) (p j)) = count_2motif_1 n a /\
  count_2motif_0 k n (fun i j => a (p i) (p j)) = count_2motif_0 k n a.
Proof.
  intros HP. unfold count_2motif_2, count_2motif_1, count_2motif_0.
  change (plus_transpose (fun i j => a (p i) (p j))) with (fun i j => plus_transpose a (p i) (p j)).
  rewrite !(count_entries_relabel n p) by exact HP. auto.
Qed.

(** * Moments of sums over ordered pairs *)
(** [u i j = phi(a_ij) psi(a_ji)]. *)
Definition dsum (n : nat) (u : nat -> nat -> R) : R := rsum n (fun i => rsum n (fun j => if Nat.eqb i j then 0 else u i j)).
Lemma dsum_ext n u v : (forall i j, (i < n)%nat -> (j < n)%nat -> i <> j -> u i j = v i j) -> dsum n u = dsum n v.
Proof.
  intros E. apply rsum_ext. intros i Hi. apply rsum_ext. intros j Hj. destruct (Nat.eqb_spec i j); [reflexivity|apply E; assumption].
Qed.
Lemma dsum_plus n u v : dsum n (fun i j => u i j + v i j) = dsum n u + dsum n v.
Proof.
  unfold dsum. rewrite <- rsum_plus. apply rsum_ext. intros i _. rewrite <- rsum_plus. apply rsum_ext. intros j _. destruct (Nat.eqb i j); ring.
Qed.
Lemma dsum_swap n u : dsum n (fun i j => u j i) = dsum n u.
Proof.
  unfold dsum. rewrite rsum_swap. apply rsum_ext. intros i _. apply rsum_ext. intros j _. rewrite Nat.eqb_sym. reflexivity.
Qed.
Lemma mean_dsum n p (u : (nat -> nat -> bool) -> nat -> nat -> R) :
  mean_directed n p (fun a => dsum n (u a)) = dsum n (fun i j => mean_directed n p (fun a => u a i j)).
Proof.
  rewrite mean_directed_on. unfold dsum. rewrite mean_on_rsum. apply rsum_ext. intros i _. rewrite mean_on_rsum. apply rsum_ext. intros j _.
  destruct (Nat.eqb i j); [apply mean_on_const, NoDup_dpairs|rewrite mean_directed_on; reflexivity].
Qed.
Lemma mean_directed_ext n p f g : (forall a, f a = g a) -> mean_directed n p f = mean_directed n p g.
Proof. intros E. rewrite !mean_directed_on. apply mean_on_ext. intros; apply E. Qed.
Lemma mean_directed_scal n p c f : mean_directed n p (fun a => c * f a) = c * mean_directed n p f.
Proof. rewrite !mean_directed_on. apply mean_on_scal. Qed.
Lemma variance_expand n p f : var_directed n p f = mean_directed n p (fun a => f a * f a) - (mean_directed n p f) ^ 2.
Proof.
  unfold var_directed. set (M := mean_directed n p f). rewrite mean_directed_on.
  rewrite (mean_on_ext _ _ _ (fun a => (f a * f a - (2 * M) * f a) + M ^ 2)) by (intros; ring).
  rewrite mean_on_plus, mean_on_minus, mean_on_scal, mean_on_const by apply NoDup_dpairs. rewrite <- !mean_directed_on. fold M. ring.
Qed.
Lemma mean_pair n p i j (phi psi : bool -> R) : (i < n)%nat -> (j < n)%nat -> i <> j ->
  mean_directed n p (fun a => phi (a i j) * psi (a j i)) =
  (p i j * phi true + (1 - p i j) * phi false) * (p j i * psi true + (1 - p j i) * psi false).
Proof.
  intros Hi Hj NE. rewrite mean_directed_on.
  pose proof (mean_on_prod_sub [(i, j); (j, i)] (dpairs n) p (fun e b => if Nat.eqb (fst e) i then phi b else psi b)) as HM. simpl in HM.
  rewrite Nat.eqb_refl in HM. destruct (Nat.eqb_spec j i); [congruence|].
  rewrite (mean_on_ext _ _ _ (fun a => phi (a i j) * (psi (a j i) * 1))) by (intros; ring).
  rewrite HM; [ring| |apply NoDup_dpairs|].
  - repeat constructor; simpl; intuition congruence.
  - intros e [<-|[<-|[]]]; apply in_dpairs; auto.
Qed.
Lemma mean_four n p i j k l (phi psi : bool -> R) : (i < n)%nat -> (j < n)%nat -> (k < n)%nat -> (l < n)%nat -> i <> j -> k <> l ->
  (i, j) <> (k, l) -> (i, j) <> (l, k) ->
  mean_directed n p (fun a => (phi (a i j) * psi (a j i)) * (phi (a k l) * psi (a l k))) =
  mean_directed n p (fun a => phi (a i j) * psi (a j i)) * mean_directed n p (fun a => phi (a k l) * psi (a l k)).
Proof.
  intros Hi Hj Hk Hl N1 N2 N3 N4. rewrite !mean_pair by assumption. rewrite mean_directed_on.
  pose proof (mean_on_prod_sub [(i, j); (j, i); (k, l); (l, k)] (dpairs n) p
    (fun e b => if (Nat.eqb (fst e) i && Nat.eqb (snd e) j) || (Nat.eqb (fst e) k && Nat.eqb (snd e) l) then phi b else psi b)) as HM. simpl in HM.
  rewrite !Nat.eqb_refl in HM.
  assert (A1 : (Nat.eqb j i && Nat.eqb i j) || (Nat.eqb j k && Nat.eqb i l) = false).
  { destruct (Nat.eqb_spec j i); [congruence|]. simpl. destruct (Nat.eqb_spec j k), (Nat.eqb_spec i l); try reflexivity. subst. congruence. }
  assert (A2 : (Nat.eqb l i && Nat.eqb k j) || (Nat.eqb l k && Nat.eqb k l) = false).
  { destruct (Nat.eqb_spec l k); [congruence|]. rewrite orb_false_r. destruct (Nat.eqb_spec l i), (Nat.eqb_spec k j); try reflexivity. subst. congruence. }
  rewrite A1, A2, orb_true_r in HM. simpl in HM.
  rewrite (mean_on_ext _ _ _ (fun a => phi (a i j) * (psi (a j i) * (phi (a k l) * (psi (a l k) * 1))))) by (intros; ring).
  rewrite HM; [ring| |apply NoDup_dpairs|].
  - assert (E : forall a b c d : nat, (a, b) = (c, d) -> a = c /\ b = d) by (intros a b c d E; injection E; auto).
    repeat constructor; simpl; intros HI; repeat (destruct HI as [HI|HI]; [apply E in HI; destruct HI; subst; congruence|]); exact HI.
  - intros e [<-|[<-|[<-|[<-|[]]]]]; apply in_dpairs; auto.
Qed.

Lemma variance_dsum n p (phi psi : bool -> R) :
  let u := fun (a : nat -> nat -> bool) i j => phi (a i j) * psi (a j i) in
  let q := fun i j => mean_directed n p (fun a => u a i j) in
  var_directed n p (fun a => dsum n (u a)) =
  dsum n (fun i j => mean_directed n p (fun a => u a i j * u a i j) - q i j * q i j + (mean_directed n p (fun a => u a i j * u a j i) - q i j * q j i)).
Proof.
  intros u q. rewrite variance_expand.
  rewrite (mean_directed_ext n p (fun a => dsum n (u a) * dsum n (u a)) (fun a => dsum n (fun i j => dsum n (fun k l => u a i j * u a k l)))).
  2:{ intros a. unfold dsum at 1. rewrite <- rsum_scal_r. apply rsum_ext. intros i _. rewrite <- rsum_scal_r. apply rsum_ext. intros j _.
      destruct (Nat.eqb i j); [ring|]. unfold dsum. rewrite <- rsum_scal_l. apply rsum_ext. intros k _. rewrite <- rsum_scal_l. apply rsum_ext. intros l _.
      destruct (Nat.eqb k l); ring. }
  rewrite (mean_dsum n p (fun a i j => dsum n (fun k l => u a i j * u a k l))), mean_dsum. fold q.
  replace ((dsum n q) ^ 2) with (dsum n (fun i j => dsum n (fun k l => q i j * q k l))).
  2:{ replace ((dsum n q) ^ 2) with (dsum n q * dsum n q) by ring.
      unfold dsum at 3. rewrite <- rsum_scal_r. apply rsum_ext. intros i _. rewrite <- rsum_scal_r. apply rsum_ext. intros j _.
      destruct (Nat.eqb i j); [ring|]. unfold dsum. rewrite <- rsum_scal_l. apply rsum_ext. intros k _. rewrite <- rsum_scal_l. apply rsum_ext. intros l _.
      destruct (Nat.eqb k l); ring. }
  enough (G : forall i j, (i < n)%nat -> (j < n)%nat -> i <> j ->
    mean_directed n p (fun a => dsum n (fun k l => u a i j * u a k l)) = dsum n (fun k l => q i j * q k l) +
    (mean_directed n p (fun a => u a i j * u a i j) - q i j * q i j + (mean_directed n p (fun a => u a i j * u a j i) - q i j * q j i))).
  { rewrite (dsum_ext n (fun i j => mean_directed n p (fun a => dsum n (fun k l => u a i j * u a k l))) _ G), dsum_plus. ring. }
  intros i j Hi Hj NE. rewrite (mean_dsum n p (fun a k l => u a i j * u a k l)).
  set (D1 := mean_directed n p (fun a => u a i j * u a i j) - q i j * q i j). set (D2 := mean_directed n p (fun a => u a i j * u a j i) - q i j * q j i).
  rewrite (dsum_ext n _ (fun k l => q i j * q k l + ((if Nat.eqb k i && Nat.eqb l j then D1 else 0) + (if Nat.eqb k j && Nat.eqb l i then D2 else 0)))).
  - rewrite dsum_plus, dsum_plus. f_equal. f_equal.
    + unfold dsum. rewrite (rsum_ext n _ (fun k => if Nat.eqb k i then D1 else 0)); [apply (rsum_single n i (fun _ => D1) Hi)|].
      intros k Hk. destruct (Nat.eqb_spec k i) as [->|Nk]; simpl.
      * rewrite (rsum_ext n _ (fun l => if Nat.eqb l j then D1 else 0)); [apply (rsum_single n j (fun _ => D1) Hj)|].
        intros l _. destruct (Nat.eqb_spec i l) as [<-|]; [|reflexivity]. destruct (Nat.eqb_spec i j); [congruence|reflexivity].
      * apply rsum_zero. intros l _. destruct (Nat.eqb k l); reflexivity.
    + unfold dsum. rewrite (rsum_ext n _ (fun k => if Nat.eqb k j then D2 else 0)); [apply (rsum_single n j (fun _ => D2) Hj)|].
      intros k Hk. destruct (Nat.eqb_spec k j) as [->|Nk]; simpl.
      * rewrite (rsum_ext n _ (fun l => if Nat.eqb l i then D2 else 0)); [apply (rsum_single n i (fun _ => D2) Hi)|].
        intros l _. destruct (Nat.eqb_spec j l) as [<-|]; [|reflexivity]. destruct (Nat.eqb_spec j i); [congruence|reflexivity].
      * apply rsum_zero. intros l _. destruct (Nat.eqb k l); reflexivity.
  - intros k l Hk Hl Nkl. destruct (Nat.eqb_spec k i) as [->|Nki]; destruct (Nat.eqb_spec l j) as [->|Nlj]; simpl.
    + destruct (Nat.eqb_spec i j); [congruence|]. simpl. unfold D1. ring.
    + destruct (Nat.eqb_spec i j); [congruence|]. simpl. unfold u. rewrite mean_four by (try assumption; try congruence). unfold q, u. ring.
    + destruct (Nat.eqb_spec k j); [congruence|]. simpl. unfold u. rewrite mean_four by (try assumption; try congruence). unfold q, u. ring.
    + destruct (Nat.eqb_spec k j) as [->|Nkj]; destruct (Nat.eqb_spec l i) as [->|Nli]; simpl.
      * unfold D2. ring.
      * unfold u. rewrite mean_four by (try assumption; try congruence). unfold q, u. ring.
      * unfold u. rewrite mean_four by (try assumption; try congruence). unfold q, u. ring.
      * unfold u. rewrite mean_four by (try assumption; try congruence). unfold q, u. ring.
Qed.
