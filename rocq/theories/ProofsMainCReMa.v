(** CReMa, undirected: solutions, fixed points, maximum; sparse functions. *)
From Coq Require Import Reals List Arith Lia Lra Bool.
From Coquelicot Require Import Coquelicot.
From Verif Require Import Base SpecDeriv ProofsDeriv SpecGraph ProofsGraph SpecEnsemble ProofsEnsemble.
From Verif Require Import ModelCM ModelDCM SpecDirected ProofsList ModelDECM ModelCReMa SpecCReMa ProofsCReMa.
Local Open Scope R_scope.
Import ListNotations.

(** * Solutions *)
Lemma stationary_crema_iff n s es beta :
  crema_dom es beta ->
  exists F E, loglikelihood_prime_crema_undirected n s es beta = Some F /\
    expected_strength_crema_undirected es beta = Some E /\
    ((forall k, (k < n)%nat -> F k = 0) <-> (forall k, (k < n)%nat -> E k = s k)).
Proof.
  intros HD. destruct (prime_crema_some n s es beta HD) as (F & EF & OF).
  destruct (expected_crema_some es beta HD) as (E & EE & OE). exists F, E. split; [exact EF|]. split; [exact EE|].
  split; intros H k Hk; specialize (H k Hk); [rewrite OF in H|rewrite OF]; rewrite OE in *;
    rewrite (proj2 (Nat.ltb_lt k n) Hk) in *; lra.
Qed.

Lemma oloop_obs {A K : Type} (obs : K -> A -> R) n (body : nat -> A -> option A) g a0 :
  (forall i a, (i < n)%nat -> exists a', body i a = Some a' /\ forall k, obs k a' = obs k a + g k i) ->
  exists a', oloop n a0 body = Some a' /\ forall k, obs k a' = obs k a0 + rsum n (g k).
Proof.
  intros H. unfold oloop. induction n as [|n IH].
  - exists a0. split; [reflexivity|]. intros; simpl; ring.
  - destruct IH as (a1 & E & O); [intros; apply H; lia|]. rewrite loop_S, E. simpl.
    destruct (H n a1 (Nat.lt_succ_diag_r n)) as (a2 & E2 & O2). exists a2. split; [exact E2|].
    intros k. rewrite O2, O. simpl. ring.
Qed.

(** Pointwise transformation [f[i] = h(f[i])] for all [i < n]. *)
Lemma oloop_pointwise n (f0 : nat -> R) (body : nat -> (nat -> R) -> option (nat -> R)) (h : nat -> R -> R) :
  (forall i f, (i < n)%nat -> exists f', body i f = Some f' /\ forall k, f' k = if Nat.eqb k i then h i (f i) else f k) ->
  exists F, oloop n f0 body = Some F /\ forall k, F k = if Nat.ltb k n then h k (f0 k) else f0 k.
Proof.
  intros H. unfold oloop. induction n as [|n IH].
  - exists f0. split; reflexivity.
  - destruct IH as (f1 & E & O); [intros; apply H; lia|]. rewrite loop_S, E. simpl.
    destruct (H n f1 (Nat.lt_succ_diag_r n)) as (f2 & E2 & O2). exists f2. split; [exact E2|].
    intros k. rewrite O2, !O. rewrite Nat.ltb_irrefl.
    destruct (Nat.eqb_spec k n) as [->|Hk].
    + rewrite (proj2 (Nat.ltb_lt n (S n)) (Nat.lt_succ_diag_r n)). reflexivity.
    + destruct (Nat.ltb_spec k n), (Nat.ltb_spec k (S n)); try lia; reflexivity.
Qed.

Lemma ratio_w (w a b : R) : a <> 0 -> a + b <> 0 -> w / (1 + b / a) = a * (w / (a + b)).
Proof.
  intros Ha Hab. assert (1 + b / a <> 0).
  { intros H. apply Hab. replace (a + b) with (a * (1 + b / a)) by (field; lra). rewrite H. ring. }
  field. repeat split; lra.
Qed.
Lemma ratio_ne (a b : R) : a <> 0 -> a + b <> 0 -> 1 + b / a <> 0.
Proof. intros Ha Hab H. apply Hab. replace (a + b) with (a * (1 + b / a)) by (field; lra). rewrite H. ring. Qed.

Lemma iterative_crema_some n s es beta :
  crema_dom es beta -> ends_nonzero es beta ->
  exists F, iterative_crema_undirected n s es beta = Some F /\
    forall k, (k < n)%nat -> F k = if Req_EM_T (s k) 0 then - (beta k * cE es beta k) else - (beta k * cE es beta k) / s k.
Proof.
  intros HD HN. unfold iterative_crema_undirected.
  match goal with |- context [eloop es ?f0 ?b] =>
    destruct (eloop_obs (fun k (f : nat -> R) => f k) es b
      (fun k i j w => - (beta k * (hit i j k * (w / (beta i + beta j))))) f0) as (F & E & O) end.
  - intros i j w f Hin. pose proof (HD i j w Hin) as Hp. destruct (HN i j w Hin) as [Hi Hj].
    rewrite sdiv_some by exact Hi. cbn [obind].
    rewrite sdiv_some by (apply ratio_ne; [exact Hi|lra]). cbn [obind].
    rewrite sdiv_some by exact Hj. cbn [obind].
    rewrite sdiv_some by (apply ratio_ne; [exact Hj|lra]). cbn [obind].
    rewrite !ratio_w by (try assumption; lra).
    eexists; split; [reflexivity|]. intros k. cbv beta. unfold hit. rewrite (Rplus_comm (beta j) (beta i)).
    destruct (Nat.eqb_spec j k) as [->|Hjk].
    + rewrite upd_eq. destruct (Nat.eqb_spec i k) as [->|Hik]; [rewrite upd_eq|rewrite upd_neq by auto]; ring.
    + rewrite upd_neq by auto. destruct (Nat.eqb_spec i k) as [->|Hik]; [rewrite upd_eq|rewrite upd_neq by auto]; ring.
  - rewrite E. cbn [obind].
    destruct (oloop_pointwise n F (fun i f => if Req_EM_T (s i) 0 then Some f else obind (sdiv (f i) (s i)) (fun d => Some (upd f i d)))
      (fun i v => if Req_EM_T (s i) 0 then v else v / s i)) as (F' & E' & O').
    + intros i f Hi. destruct (Req_EM_T (s i) 0) as [Z|Z].
      * exists f. split; [reflexivity|]. intros k. destruct (Nat.eqb_spec k i) as [->|]; reflexivity.
      * rewrite sdiv_some by exact Z. cbn [obind]. eexists; split; [reflexivity|].
        intros k. destruct (Nat.eqb_spec k i) as [->|Hk]; [apply upd_eq|apply upd_neq; auto].
    + exists F'. split; [exact E'|]. intros k Hk. rewrite O', (proj2 (Nat.ltb_lt k n) Hk), O.
      assert (Es : 0 + esum es (fun i j w => - (beta k * (hit i j k * (w / (beta i + beta j))))) = - (beta k * cE es beta k)).
      { unfold cE. rewrite esum_opp, esum_scal. ring. }
      rewrite Es. reflexivity.
Qed.

Lemma fixed_point_crema_iff n s es beta :
  crema_dom es beta -> ends_nonzero es beta ->
  exists F P, iterative_crema_undirected n s es beta = Some F /\
    loglikelihood_prime_crema_undirected n s es beta = Some P /\
    (forall k, (k < n)%nat -> s k <> 0 -> beta k <> 0 -> (- F k = beta k <-> P k = 0)) /\
    (forall k, (k < n)%nat -> s k = 0 -> (forall i j w, In (i, j, w) es -> i <> k /\ j <> k) -> F k = 0).
Proof.
  intros HD HN. destruct (iterative_crema_some n s es beta HD HN) as (F & EF & OF).
  destruct (prime_crema_some n s es beta HD) as (P & EP & OP).
  exists F, P. split; [exact EF|]. split; [exact EP|]. split.
  - intros k Hk Hs Hb. rewrite OF, OP by exact Hk. rewrite (proj2 (Nat.ltb_lt k n) Hk).
    destruct (Req_EM_T (s k) 0) as [Z|_]; [contradiction|]. split; intros H.
    + assert (Q : beta k * cE es beta k = beta k * s k).
      { replace (beta k * s k) with (- (- (beta k * cE es beta k) / s k) * s k) by (rewrite H; ring). field. exact Hs. }
      apply Rmult_eq_reg_l in Q; [lra|exact Hb].
    + replace (cE es beta k) with (s k) by lra. field. exact Hs.
  - intros k Hk Hs Hiso. rewrite OF by exact Hk. destruct (Req_EM_T (s k) 0); [|contradiction].
    replace (cE es beta k) with 0; [ring|]. symmetry. apply esum_zero. intros i j w Hin.
    destruct (Hiso i j w Hin). unfold hit. destruct (Nat.eqb_spec i k), (Nat.eqb_spec j k); try contradiction. ring.
Qed.

(** A zero parameter at a listed pair raises ZeroDivisionError. *)
Lemma eloop_none_from {A} es (body : nat -> nat -> R -> A -> option A) :
  fold_left (fun a (e : edge) => obind a (body (fst (fst e)) (snd (fst e)) (snd e))) es None = None.
Proof. induction es as [|e es IH]; [reflexivity|]. exact IH. Qed.

Lemma eloop_none {A} es a0 (body : nat -> nat -> R -> A -> option A) i j w :
  In (i, j, w) es -> (forall a, body i j w a = None) -> eloop es a0 body = None.
Proof.
  unfold eloop. intros Hin Hb. revert a0. induction es as [|e es IH]; intros a0; [destruct Hin|].
  simpl. destruct Hin as [->|Hin].
  - simpl. rewrite Hb. apply eloop_none_from.
  - destruct (body _ _ _ a0); [apply IH; exact Hin|apply eloop_none_from].
Qed.

Lemma iterative_crema_zero_error n s es beta i j w :
  In (i, j, w) es -> beta i = 0 \/ beta j = 0 -> iterative_crema_undirected n s es beta = None.
Proof.
  intros Hin Hz. unfold iterative_crema_undirected. rewrite (eloop_none es _ _ i j w Hin); [reflexivity|].
  intros f. destruct Hz as [Z|Z].
  - unfold sdiv at 1. rewrite Z. destruct (Req_EM_T 0 0); [reflexivity|congruence].
  - destruct (sdiv (beta j) (beta i)); [|reflexivity]. cbn [obind]. destruct (sdiv w (1 + r)); [|reflexivity]. cbn [obind].
    unfold sdiv. rewrite Z. destruct (Req_EM_T 0 0); [reflexivity|congruence].
Qed.

(** * Maximum *)
Lemma ln_le_sub1 u : 0 < u -> ln u <= u - 1.
Proof.
  intros Hu. destruct (Req_EM_T u 1) as [->|Hn]; [rewrite ln_1; lra|].
  left. apply Rplus_lt_reg_l with 1. replace (1 + (u - 1)) with u by ring.
  rewrite <- (exp_ln u Hu) at 2. apply exp_ineq1.
  intros H. apply Hn. rewrite <- (exp_ln u Hu), H. apply exp_0.
Qed.
Lemma ln_eq_sub1 u : 0 < u -> ln u = u - 1 -> u = 1.
Proof.
  intros Hu H. destruct (Req_EM_T u 1) as [|Hn]; [assumption|exfalso].
  assert (ln u <> 0).
  { intros H0. apply Hn. rewrite <- (exp_ln u Hu), H0. apply exp_0. }
  pose proof (exp_ineq1 (ln u) H0). rewrite exp_ln in H1 by exact Hu. lra.
Qed.

Lemma cL_gap n s es x z :
  pairs_below n es -> crema_dom es x -> crema_dom es z -> (forall k, (k < n)%nat -> cE es x k = s k) ->
  cL n s es x - cL n s es z =
  esum es (fun i j w => w * ((z i + z j) / (x i + x j) - 1 - ln ((z i + z j) / (x i + x j)))).
Proof.
  intros HB HX HZ HE. unfold cL.
  assert (S : forall y, rsum n (fun i => s i * y i) = esum es (fun i j w => w * ((y i + y j) / (x i + x j)))).
  { intros y. rewrite (rsum_ext n _ (fun k => esum es (fun i j w => hit i j k * y k * (w / (x i + x j))))).
    - rewrite <- esum_rsum. apply esum_ext. intros i j w Hin. destruct (HB i j w Hin) as [Hi Hj].
      rewrite rsum_scal_r, rsum_hit by assumption. pose proof (HX i j w Hin). field. lra.
    - intros k Hk. rewrite <- (HE k Hk). unfold cE. rewrite Rmult_comm, <- esum_scal. apply esum_ext. intros. ring. }
  rewrite !S.
  replace (- esum es (fun i j w => w * ((x i + x j) / (x i + x j))) + esum es (fun i j w => w * ln (x i + x j)) -
    (- esum es (fun i j w => w * ((z i + z j) / (x i + x j))) + esum es (fun i j w => w * ln (z i + z j))))
   with (esum es (fun i j w => w * ((z i + z j) / (x i + x j))) - esum es (fun i j w => w * ((x i + x j) / (x i + x j)))
      - (esum es (fun i j w => w * ln (z i + z j)) - esum es (fun i j w => w * ln (x i + x j)))) by ring.
  rewrite <- !esum_minus. apply esum_ext. intros i j w Hin.
  pose proof (HX i j w Hin). pose proof (HZ i j w Hin).
  rewrite ln_div by assumption. field. lra.
Qed.

Lemma solution_crema_max n s es x z :
  pairs_below n es -> nonneg_weights es -> crema_dom es x -> crema_dom es z ->
  (exists E, expected_strength_crema_undirected es x = Some E /\ forall k, (k < n)%nat -> E k = s k) ->
  loglikelihood_crema_undirected n s es z <= loglikelihood_crema_undirected n s es x.
Proof.
  intros HB HW HX HZ (E & EE & HE). rewrite !loglik_crema_nf.
  destruct (expected_crema_some es x HX) as (E' & EE' & OE). rewrite EE in EE'. injection EE' as <-.
  assert (Q : forall k, (k < n)%nat -> cE es x k = s k) by (intros k Hk; rewrite <- OE; apply HE; exact Hk).
  apply Rminus_le. apply Ropp_le_cancel. rewrite Ropp_0, Ropp_minus_distr.
  rewrite (cL_gap n s es x z HB HX HZ Q). apply esum_nonneg. intros i j w Hin.
  pose proof (HX i j w Hin). pose proof (HZ i j w Hin). pose proof (HW i j w Hin).
  apply Rmult_le_pos; [lra|].
  pose proof (ln_le_sub1 ((z i + z j) / (x i + x j)) ltac:(apply Rdiv_lt_0_compat; lra)). lra.
Qed.

Lemma maximum_crema_unique n s es x z :
  pairs_below n es -> nonneg_weights es -> crema_dom es x -> crema_dom es z ->
  (exists E, expected_strength_crema_undirected es x = Some E /\ forall k, (k < n)%nat -> E k = s k) ->
  loglikelihood_crema_undirected n s es z = loglikelihood_crema_undirected n s es x ->
  forall i j w, In (i, j, w) es -> w <> 0 -> z i + z j = x i + x j.
Proof.
  intros HB HW HX HZ (E & EE & HE) HL i j w Hin Hw. rewrite !loglik_crema_nf in HL.
  destruct (expected_crema_some es x HX) as (E' & EE' & OE). rewrite EE in EE'. injection EE' as <-.
  assert (Q : forall k, (k < n)%nat -> cE es x k = s k) by (intros k Hk; rewrite <- OE; apply HE; exact Hk).
  pose proof (cL_gap n s es x z HB HX HZ Q) as G.
  replace (cL n s es x - cL n s es z) with 0 in G by lra. symmetry in G.
  assert (Hnn : forall i j w, In (i, j, w) es -> 0 <= w * ((z i + z j) / (x i + x j) - 1 - ln ((z i + z j) / (x i + x j)))).
  { intros a b v Hab. pose proof (HX a b v Hab). pose proof (HZ a b v Hab). pose proof (HW a b v Hab).
    apply Rmult_le_pos; [lra|].
    pose proof (ln_le_sub1 ((z a + z b) / (x a + x b)) ltac:(apply Rdiv_lt_0_compat; lra)). lra. }
  pose proof (esum_nonneg_zero es _ Hnn G i j w Hin) as Z. cbv beta in Z.
  pose proof (HX i j w Hin). pose proof (HZ i j w Hin).
  apply Rmult_integral in Z. destruct Z as [Z|Z]; [contradiction|].
  assert (U : (z i + z j) / (x i + x j) = 1) by (apply ln_eq_sub1; [apply Rdiv_lt_0_compat; lra|lra]).
  replace (z i + z j) with ((z i + z j) / (x i + x j) * (x i + x j)) by (field; lra). rewrite U. ring.
Qed.

Lemma solution_crema_unique n s es x z :
  pairs_below n es -> nonneg_weights es -> crema_dom es x -> crema_dom es z ->
  (exists E, expected_strength_crema_undirected es x = Some E /\ forall k, (k < n)%nat -> E k = s k) ->
  (exists E, expected_strength_crema_undirected es z = Some E /\ forall k, (k < n)%nat -> E k = s k) ->
  forall i j w, In (i, j, w) es -> w <> 0 -> / (z i + z j) = / (x i + x j).
Proof.
  intros HB HW HX HZ H1 H2 i j w Hin Hw. f_equal. apply (maximum_crema_unique n s es x z) with (w := w); auto.
  apply Rle_antisym; apply solution_crema_max; assumption.
Qed.

(** * The list built from a matrix *)
Lemma esum_row_edges n keep p i F : (forall j, F i j 0 = 0) ->
  esum (row_edges n keep p i) F = rsum n (fun j => if keep j then F i j (p i j) else 0).
Proof.
  intros H0. unfold esum, row_edges. rewrite lsum_flat_map, lsum_seq. apply rsum_ext. intros j _.
  destruct (keep j); [|reflexivity]. destruct (Req_EM_T (p i j) 0) as [Z|Z]; simpl; [rewrite Z, H0; reflexivity|ring].
Qed.
Lemma esum_triu n p F : (forall i j, F i j 0 = 0) ->
  esum (triu_edges n p) F = rsum n (fun i => rsum n (fun j => if Nat.leb i j then F i j (p i j) else 0)).
Proof.
  intros H0. unfold triu_edges, esum. rewrite lsum_flat_map, lsum_seq. apply rsum_ext. intros i _.
  apply (esum_row_edges n (fun j => Nat.leb i j) p i F). intros; apply H0.
Qed.
Lemma esum_all n p F : (forall i j, F i j 0 = 0) ->
  esum (all_edges n p) F = rsum n (fun i => rsum n (fun j => F i j (p i j))).
Proof.
  intros H0. unfold all_edges, esum. rewrite lsum_flat_map, lsum_seq. apply rsum_ext. intros i _.
  apply (esum_row_edges n (fun _ => true) p i F). intros; apply H0.
Qed.

Lemma rsum_upper n (g : nat -> nat -> R) :
  rsum n (fun i => rsum n (fun j => if Nat.ltb i j then g i j else 0)) = rsum n (fun j => rsum j (fun i => g i j)).
Proof.
  induction n as [|n IH]; [reflexivity|].
  cbn [rsum]. rewrite <- IH.
  rewrite (rsum_ext n (fun i => rsum n (fun j => if Nat.ltb i j then g i j else 0) + (if Nat.ltb i n then g i n else 0))
    (fun i => rsum n (fun j => if Nat.ltb i j then g i j else 0) + g i n)).
  2: { intros i Hi. rewrite (proj2 (Nat.ltb_lt i n) Hi). reflexivity. }
  rewrite rsum_plus.
  rewrite (rsum_zero n (fun j => if Nat.ltb n j then g n j else 0)).
  2: { intros j Hj. destruct (Nat.ltb_spec n j); [lia|reflexivity]. }
  rewrite Nat.ltb_irrefl. ring.
Qed.

Lemma esum_triu_hollow n p F : (forall i j, F i j 0 = 0) -> (forall i, (i < n)%nat -> p i i = 0) ->
  esum (triu_edges n p) F = rsum n (fun j => rsum j (fun i => F i j (p i j))).
Proof.
  intros H0 Hp. rewrite esum_triu by exact H0. rewrite <- rsum_upper. apply rsum_ext. intros i Hi. apply rsum_ext. intros j Hj.
  destruct (Nat.leb_spec i j), (Nat.ltb_spec i j); try lia; try reflexivity.
  replace j with i by lia. rewrite Hp by exact Hi. apply H0.
Qed.

Lemma in_row_edges n keep p i a b w :
  In (a, b, w) (row_edges n keep p i) <-> a = i /\ (b < n)%nat /\ keep b = true /\ w = p i b /\ p i b <> 0.
Proof.
  unfold row_edges. rewrite in_flat_map. split.
  - intros (j & Hj & Hin). apply in_seq in Hj. destruct (keep j) eqn:K; [|destruct Hin].
    destruct (Req_EM_T (p i j) 0) as [Z|Z]; [destruct Hin|]. destruct Hin as [E|[]]. injection E as <- <- <-.
    repeat split; auto; lia.
  - intros (-> & Hb & K & -> & Z). exists b. split; [apply in_seq; lia|]. rewrite K.
    destruct (Req_EM_T (p i b) 0); [contradiction|left; reflexivity].
Qed.
Lemma in_triu n p a b w : In (a, b, w) (triu_edges n p) <-> (a <= b < n)%nat /\ w = p a b /\ p a b <> 0.
Proof.
  unfold triu_edges. rewrite in_flat_map. split.
  - intros (i & Hi & Hin). apply in_row_edges in Hin. destruct Hin as (-> & Hb & K & -> & Z).
    apply Nat.leb_le in K. repeat split; auto.
  - intros ([Hab Hb] & -> & Z). exists a. split; [apply in_seq; lia|]. apply in_row_edges.
    repeat split; auto. apply Nat.leb_le; exact Hab.
Qed.
Lemma in_all n p a b w : In (a, b, w) (all_edges n p) <-> (a < n)%nat /\ (b < n)%nat /\ w = p a b /\ p a b <> 0.
Proof.
  unfold all_edges. rewrite in_flat_map. split.
  - intros (i & Hi & Hin). apply in_row_edges in Hin. destruct Hin as (-> & Hb & K & -> & Z). apply in_seq in Hi.
    repeat split; auto; lia.
  - intros (Ha & Hb & -> & Z). exists a. split; [apply in_seq; lia|]. apply in_row_edges. repeat split; auto.
Qed.

Lemma triu_pairs_below n p : pairs_below n (triu_edges n p).
Proof. intros i j w Hin. apply in_triu in Hin. lia. Qed.

Lemma NoDup_flat_map {A B} (f : A -> list B) l :
  NoDup l -> (forall a, In a l -> NoDup (f a)) ->
  (forall a a' b, In a l -> In a' l -> In b (f a) -> In b (f a') -> a = a') -> NoDup (flat_map f l).
Proof.
  induction l as [|a l IH]; intros Hn Hf Hd; simpl; [constructor|].
  inversion Hn as [|? ? Ha Hl]; subst.
  assert (G : NoDup (flat_map f l)).
  { apply IH; auto; [intros; apply Hf; right; assumption|intros a1 a2 b H1 H2; apply Hd; right; assumption]. }
  specialize (Hf a (or_introl eq_refl)).
  assert (D : forall b, In b (f a) -> ~ In b (flat_map f l)).
  { intros b Hb Hin. apply in_flat_map in Hin. destruct Hin as (a' & Ha' & Hb').
    apply Ha. rewrite (Hd a a' b (or_introl eq_refl) (or_intror Ha') Hb Hb'). exact Ha'. }
  revert Hf D. generalize (f a) as l1. induction l1 as [|b l1 IH1]; intros Hl1 D; [exact G|].
  simpl. inversion Hl1; subst. constructor.
  - intros Hin. apply in_app_or in Hin. destruct Hin as [Hin|Hin]; [contradiction|]. apply (D b (or_introl eq_refl) Hin).
  - apply IH1; auto. intros b' Hb'. apply D. right; exact Hb'.
Qed.

Lemma NoDup_map_fst_row n keep p i : NoDup (row_edges n keep p i).
Proof.
  unfold row_edges. apply NoDup_flat_map.
  - apply seq_NoDup.
  - intros j _. destruct (keep j); [|constructor]. destruct (Req_EM_T (p i j) 0); [constructor|].
    constructor; [intros []|constructor].
  - intros j j' [[a b] w] _ _ H1 H2.
    assert (forall j, In (a, b, w) (if keep j then if Req_EM_T (p i j) 0 then [] else [(i, j, p i j)] else []) -> b = j).
    { intros k. destruct (keep k); [|intros []]. destruct (Req_EM_T (p i k) 0); [intros []|]. intros [E|[]]. congruence. }
    rewrite <- (H j H1). apply H. exact H2.
Qed.
Lemma NoDup_triu n p : NoDup (triu_edges n p).
Proof.
  apply NoDup_flat_map; [apply seq_NoDup|intros; apply NoDup_map_fst_row|].
  intros i i' [[a b] w] _ _ H1 H2. apply in_row_edges in H1. apply in_row_edges in H2. destruct H1 as [<- _], H2 as [<- _]. reflexivity.
Qed.
Lemma NoDup_all n p : NoDup (all_edges n p).
Proof.
  apply NoDup_flat_map; [apply seq_NoDup|intros; apply NoDup_map_fst_row|].
  intros i i' [[a b] w] _ _ H1 H2. apply in_row_edges in H1. apply in_row_edges in H2. destruct H1 as [<- _], H2 as [<- _]. reflexivity.
Qed.
Lemma NoDup_map_inj_in {A B} (f : A -> B) l : NoDup l -> (forall a b, In a l -> In b l -> f a = f b -> a = b) -> NoDup (map f l).
Proof.
  induction l as [|a l IH]; intros Hn Hf; simpl; [constructor|]. inversion Hn; subst. constructor.
  - intros Hin. apply in_map_iff in Hin. destruct Hin as (b & E & Hb).
    assert (a = b) by (apply Hf; [left; reflexivity|right; exact Hb|symmetry; exact E]). subst. contradiction.
  - apply IH; auto. intros; apply Hf; auto; right; assumption.
Qed.

Lemma triu_simple n p : (forall i, (i < n)%nat -> p i i = 0) -> simple_pairs (triu_edges n p).
Proof.
  intros Hp. split.
  - intros i j w Hin. apply in_triu in Hin. destruct Hin as ([H1 H2] & -> & Z). intros ->. apply Z, Hp. exact H2.
  - apply NoDup_map_inj_in; [apply NoDup_triu|]. intros [[a b] w] [[a' b'] w'] H1 H2 E. simpl in E.
    apply in_triu in H1. apply in_triu in H2. destruct H1 as (? & -> & _), H2 as (? & -> & _).
    rewrite !Nat.min_l, !Nat.max_r in E by lia. congruence.
Qed.
