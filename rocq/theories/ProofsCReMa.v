(** CReMa, undirected: derivatives, solutions, maximum. *)
From Coq Require Import Reals List Arith Lia Lra Bool Permutation.
From Coquelicot Require Import Coquelicot.
From Verif Require Import Base SpecDeriv ProofsDeriv SpecGraph ProofsGraph SpecEnsemble ProofsEnsemble.
From Verif Require Import ModelDCM SpecDirected ProofsList ModelDECM ModelCReMa SpecCReMa.
Local Open Scope R_scope.
Import ListNotations.

(** * Sums over a topology *)
Definition esum (es : topology) (F : nat -> nat -> R -> R) : R :=
  lsum es (fun e => F (fst (fst e)) (snd (fst e)) (snd e)).

Lemma esum_ext es F G : (forall i j w, In (i, j, w) es -> F i j w = G i j w) -> esum es F = esum es G.
Proof. intros H. apply lsum_ext. intros [[i j] w] Hin. apply H. exact Hin. Qed.
Lemma esum_plus es F G : esum es (fun i j w => F i j w + G i j w) = esum es F + esum es G.
Proof. unfold esum. rewrite <- lsum_plus. reflexivity. Qed.
Lemma esum_minus es F G : esum es (fun i j w => F i j w - G i j w) = esum es F - esum es G.
Proof. unfold esum. rewrite <- lsum_minus. reflexivity. Qed.
Lemma esum_opp es F : esum es (fun i j w => - F i j w) = - esum es F.
Proof. unfold esum. rewrite <- lsum_opp. reflexivity. Qed.
Lemma esum_scal es c F : esum es (fun i j w => c * F i j w) = c * esum es F.
Proof. unfold esum. rewrite <- lsum_scal. reflexivity. Qed.
Lemma esum_zero es F : (forall i j w, In (i, j, w) es -> F i j w = 0) -> esum es F = 0.
Proof. intros H. apply lsum_zero. intros [[i j] w] Hin. apply H. exact Hin. Qed.
Lemma esum_app l1 l2 F : esum (l1 ++ l2) F = esum l1 F + esum l2 F.
Proof. apply lsum_app. Qed.
Lemma esum_nonneg es F : (forall i j w, In (i, j, w) es -> 0 <= F i j w) -> 0 <= esum es F.
Proof. intros H. apply lsum_nonneg. intros [[i j] w] Hin. apply H. exact Hin. Qed.
Lemma esum_nonneg_zero es F : (forall i j w, In (i, j, w) es -> 0 <= F i j w) -> esum es F = 0 ->
  forall i j w, In (i, j, w) es -> F i j w = 0.
Proof.
  induction es as [|[[a b] v] es IH]; intros Hp H0 i j w Hin; [destruct Hin|].
  unfold esum in H0. simpl in H0. fold (esum es F) in H0.
  pose proof (Hp a b v (or_introl eq_refl)).
  pose proof (esum_nonneg es F (fun i j w H => Hp i j w (or_intror H))).
  destruct Hin as [E|Hin].
  - injection E as -> -> ->. lra.
  - apply (IH (fun i j w H => Hp i j w (or_intror H))); [lra|exact Hin].
Qed.
Lemma esum_rsum es n F : esum es (fun i j w => rsum n (fun k => F i j w k)) = rsum n (fun k => esum es (fun i j w => F i j w k)).
Proof. unfold esum. apply lsum_rsum_swap. Qed.

(** Number of ends of a pair at [k]. *)
Definition hit (i j k : nat) : R := (if Nat.eqb i k then 1 else 0) + (if Nat.eqb j k then 1 else 0).

Lemma hit_sym i j k : hit i j k = hit j i k.
Proof. unfold hit. ring. Qed.
Lemma hit_nonneg i j k : 0 <= hit i j k.
Proof. unfold hit. destruct (Nat.eqb i k), (Nat.eqb j k); lra. Qed.
Lemma rsum_hit n i j f : (i < n)%nat -> (j < n)%nat -> rsum n (fun k => hit i j k * f k) = f i + f j.
Proof.
  intros Hi Hj. rewrite <- (rsum_single n i f Hi), <- (rsum_single n j f Hj), <- rsum_plus.
  apply rsum_ext. intros k _. unfold hit. rewrite (Nat.eqb_sym i k), (Nat.eqb_sym j k).
  destruct (Nat.eqb k i), (Nat.eqb k j); ring.
Qed.

(** * Loops *)
Lemma eloop_obs {A K : Type} (obs : K -> A -> R) es (body : nat -> nat -> R -> A -> option A) g a0 :
  (forall i j w a, In (i, j, w) es -> exists a', body i j w a = Some a' /\ forall k, obs k a' = obs k a + g k i j w) ->
  exists a', eloop es a0 body = Some a' /\ forall k, obs k a' = obs k a0 + esum es (g k).
Proof.
  unfold eloop. revert a0. induction es as [|[[i j] w] es IH]; intros a0 H; simpl.
  - exists a0. split; [reflexivity|]. intros k. unfold esum; simpl; ring.
  - destruct (H i j w a0 (or_introl eq_refl)) as (a1 & E & O1). rewrite E.
    destruct (IH a1 (fun i j w a Hin => H i j w a (or_intror Hin))) as (a' & E' & O').
    exists a'. split; [exact E'|]. intros k. rewrite O', O1. unfold esum; simpl; ring.
Qed.

Lemma sdiv_some a b : b <> 0 -> sdiv a b = Some (a / b).
Proof. intros H. unfold sdiv. destruct (Req_EM_T b 0); [contradiction|reflexivity]. Qed.

Lemma upd2_hit (f : nat -> R) i j d k :
  upd (upd f i (f i + d)) j (upd f i (f i + d) j + d) k = f k + hit i j k * d.
Proof.
  unfold hit. destruct (Nat.eqb_spec j k) as [->|Hj].
  - rewrite upd_eq. destruct (Nat.eqb_spec i k) as [->|Hi]; [rewrite upd_eq|rewrite upd_neq by auto]; ring.
  - rewrite upd_neq by auto. destruct (Nat.eqb_spec i k) as [->|Hi]; [rewrite upd_eq|rewrite upd_neq by auto]; ring.
Qed.

(** * Normal forms *)
Lemma fold_left_add {B} (l : list B) (a0 : R) g : fold_left (fun f e => f + g e) l a0 = a0 + lsum l g.
Proof. revert a0. induction l as [|b l IH]; intros a0; simpl; [ring|]. rewrite IH. ring. Qed.

Definition cL (n : nat) (s : nat -> R) (es : topology) (beta : nat -> R) : R :=
  - rsum n (fun i => s i * beta i) + esum es (fun i j w => w * ln (beta i + beta j)).
Definition cE (es : topology) (beta : nat -> R) (k : nat) : R :=
  esum es (fun i j w => hit i j k * (w / (beta i + beta j))).
Definition cH (es : topology) (beta : nat -> R) (k l : nat) : R :=
  esum es (fun i j w => - (hit i j k * hit i j l * (w / (beta i + beta j) ^ 2))).

Lemma loglik_crema_nf n s es beta : loglikelihood_crema_undirected n s es beta = cL n s es beta.
Proof.
  unfold loglikelihood_crema_undirected, cL. rewrite fold_left_add. unfold esum.
  rewrite (loop_sub n 0 _ (fun i => s i * beta i)) by reflexivity. ring.
Qed.

Lemma loop_upd_sub n (s : nat -> R) : forall k,
  loop n (fun _ => 0) (fun i f => upd f i (f i - s i)) k = if Nat.ltb k n then - s k else 0.
Proof.
  induction n as [|n IH]; intros k; [reflexivity|]. rewrite loop_S.
  destruct (Nat.eq_dec n k) as [->|H].
  - rewrite upd_eq, IH. rewrite Nat.ltb_irrefl, (proj2 (Nat.ltb_lt k (S k)) (Nat.lt_succ_diag_r k)). ring.
  - rewrite upd_neq, IH by auto.
    destruct (Nat.ltb_spec k n), (Nat.ltb_spec k (S n)); try lia; reflexivity.
Qed.

Lemma prime_crema_some n s es beta : crema_dom es beta ->
  exists F, loglikelihood_prime_crema_undirected n s es beta = Some F /\
    forall k, F k = (if Nat.ltb k n then - s k else 0) + cE es beta k.
Proof.
  intros HD. unfold loglikelihood_prime_crema_undirected.
  destruct (eloop_obs (fun k (f : nat -> R) => f k) es
    (fun i j w f => let aux := beta i + beta j in obind (sdiv w aux) (fun d =>
      let f := upd f i (f i + d) in Some (upd f j (f j + d))))
    (fun k i j w => hit i j k * (w / (beta i + beta j)))
    (loop n (fun _ => 0) (fun i f => upd f i (f i - s i)))) as (F & E & O).
  - intros i j w f Hin. pose proof (HD i j w Hin). cbv zeta. rewrite sdiv_some by lra. simpl.
    eexists; split; [reflexivity|]. intros k. apply upd2_hit.
  - exists F. split; [exact E|]. intros k. rewrite O, loop_upd_sub. reflexivity.
Qed.

Lemma expected_crema_some es beta : crema_dom es beta ->
  exists F, expected_strength_crema_undirected es beta = Some F /\ forall k, F k = cE es beta k.
Proof.
  intros HD. unfold expected_strength_crema_undirected.
  destruct (eloop_obs (fun k (f : nat -> R) => f k) es
    (fun i j w f => obind (sdiv w (beta i + beta j)) (fun d =>
      let f := upd f i (f i + d) in Some (upd f j (f j + d))))
    (fun k i j w => hit i j k * (w / (beta i + beta j)))
    (fun _ => 0)) as (F & E & O).
  - intros i j w f Hin. pose proof (HD i j w Hin). rewrite sdiv_some by lra. simpl.
    eexists; split; [reflexivity|]. intros k. apply upd2_hit.
  - exists F. split; [exact E|]. intros k. rewrite O. unfold cE. ring.
Qed.

Lemma diag_crema_some es beta : crema_dom es beta ->
  exists F, loglikelihood_hessian_diag_crema_undirected es beta = Some F /\
    forall k, F k = esum es (fun i j w => - (hit i j k * (w / (beta i + beta j) ^ 2))).
Proof.
  intros HD. unfold loglikelihood_hessian_diag_crema_undirected.
  destruct (eloop_obs (fun k (f : nat -> R) => f k) es
    (fun i j w f => obind (sdiv w ((beta i + beta j) ^ 2)) (fun d =>
      let f := upd f i (f i - d) in Some (upd f j (f j - d))))
    (fun k i j w => - (hit i j k * (w / (beta i + beta j) ^ 2)))
    (fun _ => 0)) as (F & E & O).
  - intros i j w f Hin. pose proof (HD i j w Hin). rewrite sdiv_some by (apply pow_nonzero; lra). cbn [obind].
    eexists; split; [reflexivity|]. intros k. unfold Rminus. rewrite upd2_hit. ring.
  - exists F. split; [exact E|]. intros k. rewrite O. ring.
Qed.

(** * Derivatives *)
Lemma is_derive_esum es (F : nat -> nat -> R -> R -> R) t (d : nat -> nat -> R -> R) :
  (forall i j w, In (i, j, w) es -> is_derive (F i j w) t (d i j w)) ->
  is_derive (fun u : R => esum es (fun i j w => F i j w u)) t (esum es d).
Proof.
  unfold esum. induction es as [|[[i j] w] es IH]; intros H; simpl.
  - apply is_derive_R0.
  - apply (is_derive_Rplus (F i j w) (fun u => lsum es (fun e => F (fst (fst e)) (snd (fst e)) (snd e) u))).
    + apply H. left; reflexivity.
    + apply IH. intros; apply H; right; assumption.
Qed.

Lemma is_derive_updsum (beta : nat -> R) h i j :
  is_derive (fun t : R => upd beta h t i + upd beta h t j) (beta h) (hit i j h).
Proof.
  unfold hit.
  assert (D : forall i, is_derive (fun t : R => upd beta h t i) (beta h) (if Nat.eqb i h then 1 else 0)).
  { intros k. destruct (Nat.eqb_spec k h) as [->|Hk].
    - apply (is_derive_fext (fun t : R => t)); [intros t; rewrite upd_eq; reflexivity|].
      apply (is_derive_id (beta h : R)).
    - apply (is_derive_fext (fun _ : R => beta k)); [intros t; rewrite upd_neq by auto; reflexivity|].
      apply is_derive_R0. }
  apply (is_derive_Rplus (fun t : R => upd beta h t i) (fun t : R => upd beta h t j)); apply D.
Qed.

Lemma is_derive_wln (w : R) (f : R -> R) (t d : R) : is_derive f t d -> 0 < f t ->
  is_derive (fun u : R => w * ln (f u)) t (d * (w / f t)).
Proof.
  intros Hf Hp.
  apply (is_derive_eq _ _ (w * (/ f t * d))); [|field; lra].
  apply (is_derive_scal (fun u : R => ln (f u)) t w).
  apply (is_derive_eq _ _ (d * / f t)); [|ring].
  apply (is_derive_comp ln f t (/ f t) d); [|exact Hf].
  apply is_derive_ln. exact Hp.
Qed.

Lemma is_derive_winv (w c : R) (f : R -> R) (t d : R) : is_derive f t d -> 0 < f t ->
  is_derive (fun u : R => c * (w / f u)) t (- (c * d * (w / f t ^ 2))).
Proof.
  intros Hf Hp.
  apply (is_derive_eq _ _ (c * (w * (- d / f t ^ 2)))); [|field; lra].
  apply (is_derive_scal (fun u : R => w / f u) t c).
  apply (is_derive_scal (fun u : R => / f u) t w).
  apply (is_derive_inv f t d); [exact Hf|lra].
Qed.

Lemma upd_self (beta : nat -> R) h i : upd beta h (beta h) i = beta i.
Proof. destruct (Nat.eq_dec h i) as [->|H]; [apply upd_eq|apply upd_neq; auto]. Qed.

Lemma partial_cL n s es beta h : crema_dom es beta ->
  partial (cL n s es) beta h ((if Nat.ltb h n then - s h else 0) + cE es beta h).
Proof.
  intros HD. unfold partial, cL, cE.
  apply (is_derive_Rplus (fun t : R => - rsum n (fun i => s i * upd beta h t i))
    (fun t : R => esum es (fun i j w => w * ln (upd beta h t i + upd beta h t j)))).
  - destruct (Nat.ltb_spec h n) as [Hh|Hh].
    + apply (is_derive_fext (fun t : R => rsum n (fun i => - s i * upd beta h t i))).
      { intros t. rewrite <- rsum_opp. apply rsum_ext. intros; ring. }
      apply (is_derive_rsum_one n h (fun i t => - s i * upd beta h t i)); auto.
      * intros j Hj Hjh. apply (is_derive_fext (fun _ : R => - s j * beta j)); [|apply is_derive_R0].
        intros t. rewrite upd_neq by auto. reflexivity.
      * apply (is_derive_fext (fun t : R => - s h * t)); [intros t; rewrite upd_eq; reflexivity|].
        auto_derive; [exact I|ring].
    + apply (is_derive_fext (fun _ : R => - rsum n (fun i => s i * beta i))); [|apply is_derive_R0].
      intros t. f_equal. apply rsum_ext. intros i Hi. rewrite upd_neq by lia. reflexivity.
  - apply (is_derive_esum es (fun i j w t => w * ln (upd beta h t i + upd beta h t j))).
    intros i j w Hin. pose proof (HD i j w Hin) as Hp.
    pose proof (is_derive_wln w (fun t : R => upd beta h t i + upd beta h t j) (beta h) (hit i j h)
      (is_derive_updsum beta h i j)) as D.
    cbv beta in D. rewrite !upd_self in D. apply D. exact Hp.
Qed.

Lemma partial_cE es beta h k : crema_dom es beta ->
  partial (fun z => cE es z k) beta h (cH es beta k h).
Proof.
  intros HD. unfold partial, cE, cH.
  apply (is_derive_esum es (fun i j w t => hit i j k * (w / (upd beta h t i + upd beta h t j)))).
  intros i j w Hin. pose proof (HD i j w Hin) as Hp.
  pose proof (is_derive_winv w (hit i j k) (fun t : R => upd beta h t i + upd beta h t j) (beta h) (hit i j h)
    (is_derive_updsum beta h i j)) as D.
  cbv beta in D. rewrite !upd_self in D. apply D. exact Hp.
Qed.

Lemma crema_dom_open es beta h : crema_dom es beta ->
  locally (beta h) (fun t : R => crema_dom es (upd beta h t)).
Proof.
  induction es as [|[[i j] w] es IH]; intros HD.
  - apply filter_forall. intros t i j w [].
  - assert (H1 : locally (beta h) (fun t : R => 0 < upd beta h t i + upd beta h t j)).
    { assert (C : continuous (fun t : R => upd beta h t i + upd beta h t j) (beta h)).
      { apply (ex_derive_continuous (fun t : R => upd beta h t i + upd beta h t j)). eexists. apply is_derive_updsum. }
      apply (C (fun y => 0 < y)). rewrite !upd_self.
      apply open_gt. apply (HD i j w). left; reflexivity. }
    specialize (IH (fun i j w Hin => HD i j w (or_intror Hin))).
    generalize (filter_and _ _ H1 IH). apply filter_imp.
    intros t [A B] a b v [E|Hin]; [injection E as <- <- <-; exact A|apply (B a b v Hin)].
Qed.

Lemma gradient_crema n s es beta :
  crema_dom es beta ->
  exists F, loglikelihood_prime_crema_undirected n s es beta = Some F /\
    forall h, partial (loglikelihood_crema_undirected n s es) beta h (F h).
Proof.
  intros HD. destruct (prime_crema_some n s es beta HD) as (F & E & O). exists F. split; [exact E|].
  intros h. rewrite O. apply (partial_ext (cL n s es)); [intros z; symmetry; apply loglik_crema_nf|].
  apply partial_cL. exact HD.
Qed.

Lemma opartial_prime n s es beta k h d :
  crema_dom es beta -> d = cH es beta k h ->
  opartial (fun z => oentry (loglikelihood_prime_crema_undirected n s es z) k) beta h d.
Proof.
  intros HD ->. exists (fun z => (if Nat.ltb k n then - s k else 0) + cE es z k). split.
  - unfold partial. apply (is_derive_eq _ _ (0 + cH es beta k h)); [|ring].
    apply (is_derive_Rplus (fun _ : R => if Nat.ltb k n then - s k else 0) (fun t : R => cE es (upd beta h t) k)).
    + apply is_derive_R0.
    + apply partial_cE. exact HD.
  - generalize (crema_dom_open es beta h HD). apply filter_imp. intros t HDt.
    destruct (prime_crema_some n s es _ HDt) as (F & E & O). rewrite E. simpl. f_equal. apply O.
Qed.

(** The Newton matrix, for lists without self-pairs and repetitions. *)
Definition ukey (e : nat * nat * R) : nat * nat :=
  (Nat.min (fst (fst e)) (snd (fst e)), Nat.max (fst (fst e)) (snd (fst e))).

Lemma hit_both i j k l : k <> l -> hit i j k * hit i j l <> 0 ->
  (i = k /\ j = l) \/ (i = l /\ j = k).
Proof.
  intros Hkl. unfold hit.
  destruct (Nat.eqb_spec i k), (Nat.eqb_spec j k), (Nat.eqb_spec i l), (Nat.eqb_spec j l); subst; intros H;
    try (exfalso; apply H; ring); auto; exfalso; congruence.
Qed.

Lemma cH_fresh es beta i j w : i <> j -> ~ In (ukey (i, j, w)) (map ukey es) -> cH es beta i j = 0.
Proof.
  intros Hij Hf. unfold cH. apply esum_zero. intros a b v Hin.
  destruct (Req_EM_T (hit a b i * hit a b j) 0) as [->|Hn]; [ring|].
  exfalso. apply Hf. apply in_map_iff. exists (a, b, v). split; [|exact Hin].
  unfold ukey; simpl. destruct (hit_both a b i j Hij Hn) as [[-> ->]|[-> ->]]; [reflexivity|].
  rewrite Nat.min_comm, Nat.max_comm. reflexivity.
Qed.

Lemma cH_sym es beta k l : cH es beta k l = cH es beta l k.
Proof. apply esum_ext. intros. ring. Qed.

Lemma eloop_app {A} l1 l2 (a : A) body : eloop (l1 ++ l2) a body = obind (eloop l1 a body) (fun a => eloop l2 a body).
Proof.
  unfold eloop. rewrite fold_left_app. match goal with |- fold_left _ _ ?x = obind ?y _ => change y with x; destruct x end; [reflexivity|].
  simpl. clear. induction l2 as [|e l IH]; [reflexivity|]. simpl. exact IH.
Qed.

Lemma upd2_at f i j v k l : upd2 f i j v k l = if andb (Nat.eqb i k) (Nat.eqb j l) then v else f k l.
Proof.
  unfold upd2. destruct (Nat.eqb_spec i k) as [->|H]; simpl.
  - rewrite upd_eq. destruct (Nat.eqb_spec j l) as [->|H']; [apply upd_eq|apply upd_neq; auto].
  - rewrite upd_neq by auto. reflexivity.
Qed.

Lemma simple_pairs_app es e : simple_pairs (es ++ [e]) ->
  simple_pairs es /\ fst (fst e) <> snd (fst e) /\ ~ In (ukey e) (map ukey es).
Proof.
  intros [H1 H2]. fold ukey in H2. rewrite map_app in H2. simpl in H2.
  assert (Hp : Permutation (map ukey es ++ [ukey e]) (ukey e :: map ukey es)).
  { symmetry. apply Permutation_cons_append. }
  apply (Permutation_NoDup Hp) in H2. inversion H2 as [|? ? Hn Hd]; subst. split; [split|split].
  - intros i j w Hin. apply (H1 i j w). apply in_or_app. left; exact Hin.
  - exact Hd.
  - destruct e as [[i j] w]. simpl. apply (H1 i j w). apply in_or_app. right. left. reflexivity.
  - exact Hn.
Qed.

Lemma hessian_crema_some es beta : crema_dom es beta -> simple_pairs es ->
  exists F, loglikelihood_hessian_crema_undirected es beta = Some F /\ forall k l, F k l = cH es beta k l.
Proof.
  induction es as [|e es IH] using rev_ind; intros HD HS.
  - exists (fun _ _ => 0). split; [reflexivity|]. reflexivity.
  - destruct (simple_pairs_app es e HS) as (HS' & Hne & Hf).
    destruct IH as (F & E & O).
    { intros i j w Hin. apply (HD i j w). apply in_or_app. left; exact Hin. }
    { exact HS'. }
    unfold loglikelihood_hessian_crema_undirected in E |- *. rewrite eloop_app, E. cbn [obind].
    destruct e as [[i j] w]. cbn [fst snd] in Hne.
    assert (Hp : 0 < beta i + beta j) by (apply (HD i j w); apply in_or_app; right; left; reflexivity).
    unfold eloop. cbn [fold_left obind fst snd]. rewrite sdiv_some by (apply pow_nonzero; lra). cbn [obind].
    eexists. split; [reflexivity|]. intros k l.
    unfold cH. rewrite esum_app. fold (cH es beta k l).
    unfold esum at 1. cbn [lsum fold_right fst snd].
    assert (E1 : cH es beta i j = 0) by (apply (cH_fresh es beta i j w Hne Hf)).
    assert (E2 : cH es beta j i = 0) by (rewrite cH_sym; exact E1).
    rewrite !upd2_at, !O. unfold hit.
    destruct (Nat.eqb_spec i k); destruct (Nat.eqb_spec j k); destruct (Nat.eqb_spec i l); destruct (Nat.eqb_spec j l);
      subst; try congruence; cbn [andb]; rewrite ?Nat.eqb_refl; cbn [andb];
      repeat match goal with |- context [Nat.eqb ?a ?b] => destruct (Nat.eqb_spec a b); [congruence|] end; cbn [andb];
      rewrite ?E1, ?E2; unfold Rdiv; try ring.
Qed.

Lemma hessian_crema_correct n s es beta :
  crema_dom es beta -> simple_pairs es ->
  exists H, loglikelihood_hessian_crema_undirected es beta = Some H /\
    forall k h, opartial (fun z => oentry (loglikelihood_prime_crema_undirected n s es z) k) beta h (H k h).
Proof.
  intros HD HS. destruct (hessian_crema_some es beta HD HS) as (H & E & O). exists H. split; [exact E|].
  intros k h. apply opartial_prime; auto.
Qed.

Lemma hit_idem i j k : i <> j -> hit i j k * hit i j k = hit i j k.
Proof. intros H. unfold hit. destruct (Nat.eqb_spec i k), (Nat.eqb_spec j k); subst; try congruence; ring. Qed.

Lemma hessian_diag_crema_correct n s es beta :
  crema_dom es beta -> (forall i j w, In (i, j, w) es -> i <> j) ->
  exists D, loglikelihood_hessian_diag_crema_undirected es beta = Some D /\
    forall h, opartial (fun z => oentry (loglikelihood_prime_crema_undirected n s es z) h) beta h (D h).
Proof.
  intros HD HS. destruct (diag_crema_some es beta HD) as (D & E & O). exists D. split; [exact E|].
  intros h. apply opartial_prime; auto. rewrite O. apply esum_ext. intros i j w Hin.
  rewrite hit_idem by (apply (HS i j w Hin)). reflexivity.
Qed.
