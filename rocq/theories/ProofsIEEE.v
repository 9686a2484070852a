(** On their domains the functions meet no zero divisor and their logarithms are real. *)
From Coq Require Import Reals List Arith Bool Lra Lia FunctionalExtensionality.
From Coquelicot Require Import Coquelicot.
From Verif Require Import Base SpecDeriv SpecGraph SpecEnsemble SpecWeighted SpecDirected SpecCReMa
  ModelCM ModelECM ModelDCM ModelDECM ModelCReMa ModelIEEE.
From Verif Require Import ProofsEnsemble.
Import ListNotations.
Local Open Scope R_scope.

Lemma flog_pos b : 0 < b -> flog b = Fin (ln b).
Proof. intros H. unfold flog. destruct (Rlt_dec 0 b); [reflexivity|contradiction]. Qed.
Lemma ffold_fin (g : edge -> R) es a : (forall e, In e es -> 0 < g e) ->
  fold_left (fun f e => fadd f (fmul (snd e) (flog (g e)))) es (Fin a) = Fin (fold_left (fun f e => f + snd e * ln (g e)) es a).
Proof.
  revert a. induction es as [|e es IH]; intros a H; [reflexivity|]. cbn [fold_left].
  rewrite flog_pos by (apply H; left; reflexivity). cbn [fmul fadd]. apply IH. intros e' He'. apply H. right; exact He'.
Qed.
Lemma fcrema_fin n s es beta : crema_dom es beta -> floglikelihood_crema_undirected n s es beta = Fin (loglikelihood_crema_undirected n s es beta).
Proof.
  intros HD. unfold floglikelihood_crema_undirected, loglikelihood_crema_undirected.
  apply (ffold_fin (fun e => beta (fst (fst e)) + beta (snd (fst e)))). intros [[i j] w] Hin. apply (HD i j w Hin).
Qed.
Lemma fcrema_dir_fin n so si es nzo nzi beta : crema_dir_dom n es beta ->
  floglikelihood_crema_directed n so si es nzo nzi beta = Fin (loglikelihood_crema_directed n so si es nzo nzi beta).
Proof.
  intros HD. unfold floglikelihood_crema_directed, loglikelihood_crema_directed. cbv zeta.
  apply (ffold_fin (fun e => beta (fst (fst e)) + beta (snd (fst e) + n)%nat)). intros [[i j] w] Hin. apply (HD i j w Hin).
Qed.
Lemma fmul_fin_log w b : 0 < b -> fmul w (flog b) = Fin (w * ln b).
Proof. intros H. rewrite flog_pos by exact H. reflexivity. Qed.
Lemma loop_fin n (a0 : R) (b : nat -> fval -> fval) (c : nat -> R -> R) :
  (forall i f, (i < n)%nat -> b i (Fin f) = Fin (c i f)) -> loop n (Fin a0) b = Fin (loop n a0 c).
Proof.
  induction n as [|n IH]; intros H; [reflexivity|]. rewrite !loop_S, IH by (intros; apply H; lia). apply H. lia.
Qed.

(** ** Divisors *)
Lemma nonzero_true a : nonzero a = true <-> a <> 0.
Proof. unfold nonzero. destruct (Req_EM_T a 0); split; intros; try congruence. Qed.
Lemma nonzero_pos a : 0 < a -> nonzero a = true.
Proof. intros H. apply nonzero_true. lra. Qed.
Lemma every_true n p : every n p = true <-> forall i, (i < n)%nat -> p i = true.
Proof.
  unfold every. rewrite forallb_forall. split; intros H i Hi; apply H; [apply in_seq; lia|apply in_seq in Hi; lia].
Qed.
Lemma every_pair_true n p : every_pair n p = true <-> forall i j, (i < n)%nat -> (j < n)%nat -> p i j = true.
Proof.
  unfold every_pair. rewrite every_true. split.
  - intros H i j Hi Hj. specialize (H i Hi). rewrite every_true in H. auto.
  - intros H i Hi. apply every_true. auto.
Qed.
Lemma every_other_true n p : every_other n p = true <-> forall i j, (i < n)%nat -> (j < n)%nat -> i <> j -> p i j = true.
Proof.
  unfold every_other. rewrite every_pair_true. split.
  - intros H i j Hi Hj Hij. specialize (H i j Hi Hj). destruct (Nat.eqb_spec i j); [contradiction|exact H].
  - intros H i j Hi Hj. destruct (Nat.eqb_spec i j); [reflexivity|]. apply H; assumption.
Qed.
Lemma every_below_true n p : every_below n p = true <-> forall i j, (i < n)%nat -> (j < i)%nat -> p i j = true.
Proof.
  unfold every_below. rewrite every_true. split.
  - intros H i j Hi Hj. specialize (H i Hi). rewrite every_true in H. auto.
  - intros H i Hi. apply every_true. auto.
Qed.

Lemma cm_pairs_ok n x : (forall i, (i < n)%nat -> 0 <= x i) -> cm_pairs n x = true.
Proof.
  intros H. apply every_pair_true. intros i j Hi Hj. apply nonzero_pos.
  pose proof (Rmult_le_pos _ _ (H i Hi) (H j Hj)). lra.
Qed.
Lemma cm_divisors_ok n x : (forall i, (i < n)%nat -> 0 < x i) -> cm_divisors n x = true.
Proof.
  intros H. unfold cm_divisors. rewrite cm_pairs_ok by (intros i Hi; left; auto). rewrite andb_true_r.
  apply every_true. intros i Hi. apply nonzero_pos. auto.
Qed.
Lemma pair_pos x y : 0 <= x -> 0 <= y -> y < 1 -> 0 < 1 - y + x * y.
Proof. intros Hx Hy H. pose proof (Rmult_le_pos _ _ Hx Hy). lra. Qed.
Lemma ecm_pairs_ok n x y : (forall i, (i < n)%nat -> 0 <= x i /\ 0 <= y i) ->
  (forall i j, (i < n)%nat -> (j < n)%nat -> i <> j -> y i * y j < 1) -> ecm_pairs n x y = true.
Proof.
  intros H H1. apply every_other_true. intros i j Hi Hj Hij. specialize (H1 i j Hi Hj Hij).
  destruct (H i Hi), (H j Hj). apply andb_true_iff. split; apply nonzero_pos; [lra|].
  apply pair_pos; [apply Rmult_le_pos; assumption..|exact H1].
Qed.
Lemma ecm_pairs_dom n x : ecm_dom n x -> ecm_pairs n x (fun i => x (i + n)%nat) = true.
Proof.
  intros [H H1]. apply ecm_pairs_ok; [|exact H1]. intros i Hi. destruct (H i Hi). split; left; assumption.
Qed.
Lemma ecm_divisors_ok n x : ecm_dom n x -> ecm_divisors n x = true.
Proof.
  intros HD. unfold ecm_divisors. rewrite ecm_pairs_dom by exact HD. rewrite andb_true_r.
  apply every_true. intros i Hi. destruct (proj1 HD i Hi). apply andb_true_iff. split; apply nonzero_pos; assumption.
Qed.
Lemma exp_pair_lt a b : 0 < a + b -> exp (- a) * exp (- b) < 1.
Proof. intros H. rewrite <- exp_plus, <- exp_0. apply exp_increasing. lra. Qed.
Lemma ecm_exp_divisors_ok n x : ecm_exp_dom n x -> ecm_exp_divisors n x = true.
Proof.
  intros HD. apply ecm_pairs_ok.
  - intros i _. split; left; apply exp_pos.
  - intros i j Hi Hj Hij. apply exp_pair_lt. apply HD; assumption.
Qed.
Lemma ecm_below_ok n x : ecm_dom n x -> ecm_below n x = true.
Proof.
  intros [H H1]. apply every_below_true. intros i j Hi Hj. cbv zeta. apply nonzero_pos.
  destruct (H i Hi), (H j ltac:(lia)). apply pair_pos; [apply Rmult_le_pos; lra..|apply H1; lia].
Qed.
Lemma ecm_exp_below_ok n x : ecm_exp_dom n x -> ecm_exp_below n x = true.
Proof.
  intros HD. apply every_below_true. intros i j Hi Hj. apply nonzero_pos.
  pose proof (exp_pair_lt (x (i + n)%nat) (x (j + n)%nat) ltac:(apply HD; lia)). lra.
Qed.
Lemma dcm_pairs_ok n x : (forall i, (i < n)%nat -> 0 <= x i /\ 0 <= x (i + n)%nat) -> dcm_pairs n x = true.
Proof.
  intros H. apply every_pair_true. intros i j Hi Hj. apply nonzero_pos.
  pose proof (Rmult_le_pos _ _ (proj1 (H i Hi)) (proj2 (H j Hj))). lra.
Qed.
Lemma dcm_divisors_ok n nzo nzi x : dcm_dom n nzo nzi x -> dcm_divisors n nzo nzi x = true.
Proof.
  intros [H1 H2]. unfold dcm_divisors. rewrite !andb_true_iff, !forallb_forall. repeat split.
  - intros i Hi. apply nonzero_pos. auto.
  - intros i Hi. apply nonzero_pos. auto.
  - intros i Hi. apply forallb_forall. intros j Hj. apply nonzero_pos.
    pose proof (Rmult_lt_0_compat _ _ (H1 i Hi) (H2 j Hj)). lra.
Qed.
Lemma decm_pairs_ok n x : (forall r, (r < 4 * n)%nat -> 0 <= x r) ->
  (forall i j, (i < n)%nat -> (j < n)%nat -> i <> j -> x (i + 2 * n)%nat * x (j + 3 * n)%nat < 1) -> decm_pair_divisors n x = true.
Proof.
  intros H H1. apply every_other_true. intros i j Hi Hj Hij. specialize (H1 i j Hi Hj Hij). cbv zeta.
  apply andb_true_iff. split; apply nonzero_pos; [lra|]. apply pair_pos; [apply Rmult_le_pos; apply H; lia..|exact H1].
Qed.
Lemma decm_divisors_ok n ko ki so si x : decm_dom n x -> decm_supp n ko ki so si x -> decm_divisors n ko ki so si x = true.
Proof.
  intros [H H1] HS. unfold decm_divisors. rewrite decm_pairs_ok by assumption. rewrite andb_true_r.
  apply every_true. intros i Hi. destruct (HS i Hi) as (S1 & S2 & S3 & S4).
  assert (E : forall k v, (k <> 0 -> 0 < v) -> negb (nonzero k) || nonzero v = true).
  { intros k v Hk. unfold nonzero at 1. destruct (Req_EM_T k 0) as [|N]; [reflexivity|]. cbn. apply nonzero_pos. auto. }
  rewrite !E by assumption. reflexivity.
Qed.
Lemma decm_exp_divisors_ok n x : decm_exp_dom n x -> decm_exp_divisors n x = true.
Proof.
  intros HD. apply decm_pairs_ok.
  - intros r _. left. apply exp_pos.
  - intros i j Hi Hj Hij. apply exp_pair_lt. apply HD; assumption.
Qed.
Lemma decm_exp_loglik_divisors_ok n x : decm_exp_dom n x -> decm_exp_loglik_divisors n x = true.
Proof.
  intros HD. apply every_other_true. intros i j Hi Hj Hij. apply nonzero_pos.
  pose proof (exp_pair_lt _ _ (HD i j Hi Hj Hij)) as H. rewrite <- exp_plus in H.
  replace (- x (i + 2 * n)%nat - x (j + 3 * n)%nat) with (- x (i + 2 * n)%nat + - x (j + 3 * n)%nat) by ring. lra.
Qed.

(** ** The sets of points without zero divisor are open along every coordinate *)
Lemma locally_every (n : nat) (p : nat -> R -> bool) t :
  (forall i, (i < n)%nat -> p i t = true -> locally t (fun u => p i u = true)) ->
  every n (fun i => p i t) = true -> locally t (fun u => every n (fun i => p i u) = true).
Proof.
  intros H E. rewrite every_true in E.
  assert (K : forall m, (m <= n)%nat -> locally t (fun u => forall i, (i < m)%nat -> p i u = true)).
  { induction m as [|m IH]; intros Hm.
    - apply filter_forall. intros u i Hi. lia.
    - generalize (filter_and (F := locally t) _ _ (IH ltac:(lia)) (H m ltac:(lia) (E m ltac:(lia)))). apply filter_imp.
      intros u [A B] i Hi. destruct (Nat.eq_dec i m) as [->|]; [exact B|apply A; lia]. }
  generalize (K n (le_n n)). apply filter_imp. intros u A. apply every_true. exact A.
Qed.
Lemma locally_forallb (l : list nat) (p : nat -> R -> bool) t :
  (forall i, In i l -> p i t = true -> locally t (fun u => p i u = true)) ->
  forallb (fun i => p i t) l = true -> locally t (fun u => forallb (fun i => p i u) l = true).
Proof.
  induction l as [|a l IH]; intros H E; cbn [forallb] in *.
  - apply filter_forall. reflexivity.
  - apply andb_true_iff in E. destruct E as [E1 E2].
    generalize (filter_and (F := locally t) _ _ (H a (or_introl eq_refl) E1) (IH (fun i Hi => H i (or_intror Hi)) E2)). apply filter_imp.
    intros u [A B]. rewrite A, B. reflexivity.
Qed.
Lemma locally_andb (a b : R -> bool) t :
  (a t = true -> locally t (fun u => a u = true)) -> (b t = true -> locally t (fun u => b u = true)) ->
  a t && b t = true -> locally t (fun u => a u && b u = true).
Proof.
  intros Ha Hb E. apply andb_true_iff in E. destruct E as [E1 E2].
  generalize (filter_and (F := locally t) _ _ (Ha E1) (Hb E2)). apply filter_imp. intros u [A B]. rewrite A, B. reflexivity.
Qed.
Lemma locally_orb_const (a : bool) (b : R -> bool) t :
  (b t = true -> locally t (fun u => b u = true)) -> a || b t = true -> locally t (fun u => a || b u = true).
Proof.
  intros Hb E. destruct a; [apply filter_forall; reflexivity|]. exact (Hb E).
Qed.
Lemma locally_nonzero (g : R -> R) t : @continuous R_UniformSpace R_UniformSpace g t -> nonzero (g t) = true -> locally t (fun u => nonzero (g u) = true).
Proof.
  intros C E. apply nonzero_true in E.
  assert (L : locally (g t) (fun v => v <> 0)).
  { exists (mkposreal (Rabs (g t)) (Rabs_pos_lt _ E)). intros v Hv Z. subst v. cbn in Hv.
    unfold ball in Hv; cbn in Hv; unfold AbsRing_ball, abs, minus, plus, opp in Hv; cbn in Hv.
    rewrite Rplus_0_l, Rabs_Ropp in Hv. lra. }
  generalize (C _ L). unfold filtermap. apply filter_imp. intros u Hu. apply nonzero_true. exact Hu.
Qed.
Lemma cont_upd x h i : @continuous R_UniformSpace R_UniformSpace (fun t => upd x h t i) (x h).
Proof. unfold upd. destruct (Nat.eqb i h); [apply continuous_id|apply continuous_const]. Qed.
Lemma cont_mult (f g : R -> R) t : @continuous R_UniformSpace R_UniformSpace f t -> @continuous R_UniformSpace R_UniformSpace g t -> @continuous R_UniformSpace R_UniformSpace (fun u => f u * g u) t.
Proof. intros. apply (continuous_mult f g); assumption. Qed.
Lemma cont_plus (f g : R -> R) t : @continuous R_UniformSpace R_UniformSpace f t -> @continuous R_UniformSpace R_UniformSpace g t -> @continuous R_UniformSpace R_UniformSpace (fun u => f u + g u) t.
Proof. intros. apply (continuous_plus f g); assumption. Qed.
Lemma cont_minus (f g : R -> R) t : @continuous R_UniformSpace R_UniformSpace f t -> @continuous R_UniformSpace R_UniformSpace g t -> @continuous R_UniformSpace R_UniformSpace (fun u => f u - g u) t.
Proof. intros. apply (continuous_minus f g); assumption. Qed.
Lemma cont_exp_opp (f : R -> R) t : @continuous R_UniformSpace R_UniformSpace f t -> @continuous R_UniformSpace R_UniformSpace (fun u => exp (- f u)) t.
Proof.
  intros C. apply (continuous_comp (fun u => - f u) exp); [apply (continuous_opp f); exact C|].
  apply ElemFct.continuous_exp.
Qed.
Ltac cont := cbv beta; lazymatch goal with
  | |- @continuous _ _ (fun u => exp (- @?f u)) ?t => apply (cont_exp_opp f t); cont
  | |- @continuous _ _ (fun u => @?f u + @?g u) ?t => apply (cont_plus f g t); cont
  | |- @continuous _ _ (fun u => @?f u - @?g u) ?t => apply (cont_minus f g t); cont
  | |- @continuous _ _ (fun u => @?f u * @?g u) ?t => apply (cont_mult f g t); cont
  | |- @continuous _ _ (fun u => upd ?x ?h u ?i) _ => apply (cont_upd x h i)
  | |- @continuous _ _ (fun u => ?c) ?t => apply continuous_const
  end.
Ltac opens := cbv beta zeta; lazymatch goal with
  | |- _ -> locally ?t (fun u => @?a u && @?b u = true) => apply (locally_andb a b t); opens
  | |- _ -> locally ?t (fun u => ?a || @?b u = true) => apply (locally_orb_const a b t); opens
  | |- _ -> locally ?t (fun u => every ?n (@?p u) = true) => apply (locally_every n (fun i u => p u i) t); intros ? _; opens
  | |- _ -> locally ?t (fun u => forallb (@?p u) ?l = true) => apply (locally_forallb l (fun i u => p u i) t); intros ? _; opens
  | |- _ -> locally ?t (fun u => nonzero (@?g u) = true) => apply (locally_nonzero g t); cbv beta; cont
  end.
Lemma upd_self {A} (x : nat -> A) h : upd x h (x h) = x.
Proof. apply functional_extensionality. intros i. unfold upd. destruct (Nat.eqb_spec i h) as [->|]; reflexivity. Qed.

Lemma cm_divisors_open n x h : cm_divisors n x = true -> locally (x h) (fun t => cm_divisors n (upd x h t) = true).
Proof. intros E. rewrite <- (upd_self x h) in E. revert E. unfold cm_divisors, cm_pairs, every_pair. opens. Qed.
Lemma ecm_divisors_open n x h : ecm_divisors n x = true -> locally (x h) (fun t => ecm_divisors n (upd x h t) = true).
Proof. intros E. rewrite <- (upd_self x h) in E. revert E. unfold ecm_divisors, ecm_pairs, every_other, every_pair. opens. Qed.
Lemma ecm_exp_divisors_open n x h : ecm_exp_divisors n x = true -> locally (x h) (fun t => ecm_exp_divisors n (upd x h t) = true).
Proof. intros E. rewrite <- (upd_self x h) in E. revert E. unfold ecm_exp_divisors, ecm_pairs, every_other, every_pair. opens. Qed.
Lemma dcm_divisors_open n nzo nzi x h : dcm_divisors n nzo nzi x = true -> locally (x h) (fun t => dcm_divisors n nzo nzi (upd x h t) = true).
Proof. intros E. rewrite <- (upd_self x h) in E. revert E. unfold dcm_divisors. opens. Qed.
Lemma decm_divisors_open n ko ki so si x h :
  decm_divisors n ko ki so si x = true -> locally (x h) (fun t => decm_divisors n ko ki so si (upd x h t) = true).
Proof. intros E. rewrite <- (upd_self x h) in E. revert E. unfold decm_divisors, decm_pair_divisors, every_other, every_pair. opens. Qed.
Lemma decm_exp_divisors_open n x h : decm_exp_divisors n x = true -> locally (x h) (fun t => decm_exp_divisors n (upd x h t) = true).
Proof. intros E. rewrite <- (upd_self x h) in E. revert E. unfold decm_exp_divisors, decm_pair_divisors, every_other, every_pair. opens. Qed.

(** ** Values *)
Lemma lloop_fin l (a0 : R) (b : nat -> fval -> fval) (c : nat -> R -> R) :
  (forall i f, In i l -> b i (Fin f) = Fin (c i f)) -> lloop l (Fin a0) b = Fin (lloop l a0 c).
Proof.
  revert a0. induction l as [|i l IH]; intros a0 H; [reflexivity|]. unfold lloop in *. cbn [fold_left].
  rewrite H by (left; reflexivity). apply IH. intros j f Hj. apply H. right. exact Hj.
Qed.
Lemma fcm_fin n k c x : (forall i, (i < n)%nat -> 0 < x i) -> floglikelihood_cm n k c x = Fin (loglikelihood_cm n k c x).
Proof.
  intros H. unfold floglikelihood_cm, loglikelihood_cm. cbv zeta. apply loop_fin. intros i f Hi.
  rewrite fmul_fin_log by auto. cbn [fadd]. apply loop_fin. intros j g Hj.
  pose proof (Rmult_lt_0_compat _ _ (H i Hi) (H j Hj)). pose proof (pow2_ge_0 (x i)).
  rewrite !fmul_fin_log by lra. destruct (Nat.eqb i j); unfold fsub; cbn [fmul fopp fadd]; f_equal; field.
Qed.
Lemma fdcm_fin n ko ki nzo nzi c x : dcm_dom n nzo nzi x ->
  floglikelihood_dcm n ko ki nzo nzi c x = Fin (loglikelihood_dcm n ko ki nzo nzi c x).
Proof.
  intros [H1 H2]. unfold floglikelihood_dcm, loglikelihood_dcm. cbv zeta.
  rewrite (lloop_fin nzo 0 _ (fun i f => lloop nzi (f + c i * ko i * ln (x i)) (fun j f =>
      if negb (Nat.eqb i j) then f - c i * c j * ln (1 + x i * x (n + j)%nat)
      else f - c i * (c i - 1) * ln (1 + x i * x (n + j)%nat)))).
  - apply lloop_fin. intros j f Hj. rewrite fmul_fin_log by auto. reflexivity.
  - intros i f Hi. rewrite fmul_fin_log by auto. cbn [fadd]. apply lloop_fin. intros j g Hj.
    pose proof (Rmult_lt_0_compat _ _ (H1 i Hi) (H2 j Hj)) as P. rewrite (Nat.add_comm j n) in P.
    rewrite !fmul_fin_log by lra. destruct (negb (Nat.eqb i j)); reflexivity.
Qed.
Lemma fecm_fin n k s x : ecm_dom n x -> floglikelihood_ecm n k s x = Fin (loglikelihood_ecm n k s x).
Proof.
  intros [H H1]. unfold floglikelihood_ecm, loglikelihood_ecm. cbv zeta. apply loop_fin. intros i f Hi.
  destruct (H i Hi). rewrite !fmul_fin_log by assumption. cbn [fadd]. apply loop_fin. intros j g Hj.
  destruct (H j ltac:(lia)). specialize (H1 i j Hi ltac:(lia) ltac:(lia)).
  assert (P : 0 < 1 - x (i + n)%nat * x (j + n)%nat + x i * x j * (x (i + n)%nat * x (j + n)%nat)) by (apply pair_pos; [apply Rmult_le_pos; lra..|exact H1]).
  unfold sdiv. destruct (Req_EM_T _ 0) as [Z|_]; [lra|]. rewrite flog_pos; [reflexivity|]. apply Rdiv_lt_0_compat; lra.
Qed.
Lemma fecm_exp_fin n k s x : ecm_exp_dom n x -> floglikelihood_ecm_exp n k s x = Fin (loglikelihood_ecm_exp n k s x).
Proof.
  intros H. unfold floglikelihood_ecm_exp, loglikelihood_ecm_exp. cbv zeta. apply loop_fin. intros i f Hi.
  unfold fsub at 2. cbn [fopp fadd]. apply loop_fin. intros j g Hj.
  pose proof (exp_pair_lt _ _ (H i j Hi ltac:(lia) ltac:(lia))) as L.
  pose proof (exp_pos (- x i)). pose proof (exp_pos (- x j)). pose proof (exp_pos (- x (i + n)%nat)). pose proof (exp_pos (- x (j + n)%nat)).
  assert (P : 0 < exp (- x i) * exp (- x j) * (exp (- x (i + n)%nat) * exp (- x (j + n)%nat) / (1 - exp (- x (i + n)%nat) * exp (- x (j + n)%nat)))).
  { apply Rmult_lt_0_compat; [apply Rmult_lt_0_compat; assumption|]. apply Rdiv_lt_0_compat; [apply Rmult_lt_0_compat; assumption|lra]. }
  rewrite flog_pos by lra. reflexivity.
Qed.
Lemma fdecm_supp_fin n ko ki so si x : decm_dom n x -> decm_supp n ko ki so si x ->
  floglikelihood_decm n ko ki so si x = Fin (loglikelihood_decm n ko ki so si x).
Proof.
  intros [P HD] HS. unfold floglikelihood_decm, loglikelihood_decm. cbv zeta. apply loop_fin. intros i f Hi.
  destruct (HS i Hi) as (S1 & S2 & S3 & S4).
  assert (E : forall (w g v : R), (w <> 0 -> 0 < v) -> (if Req_EM_T w 0 then Fin g else fadd (Fin g) (fmul w (flog v))) =
     Fin (if Req_EM_T w 0 then g else g + w * ln v)).
  { intros w g v Hv. destruct (Req_EM_T w 0); [reflexivity|]. rewrite fmul_fin_log by auto. reflexivity. }
  rewrite !E by assumption. apply loop_fin. intros j g Hj. destruct (Nat.eqb_spec i j) as [|Hij]; cbn [negb]; [reflexivity|].
  specialize (HD i j Hi Hj Hij).
  assert (Q : 0 < 1 - x (i + 2 * n)%nat * x (j + 3 * n)%nat + x i * x (j + n)%nat * (x (i + 2 * n)%nat * x (j + 3 * n)%nat))
    by (apply pair_pos; [apply Rmult_le_pos; apply P; lia..|exact HD]).
  replace (x i * x (j + n)%nat * (x (i + 2 * n)%nat * x (j + 3 * n)%nat)) with (x (i + 2 * n)%nat * x (j + 3 * n)%nat * x i * x (j + n)%nat) in Q by ring.
  rewrite !flog_pos by lra. unfold fsub. cbn [fadd fopp]. reflexivity.
Qed.
Lemma fdecm_exp_fin n ko ki so si x : decm_exp_dom n x ->
  floglikelihood_decm_exp n ko ki so si x = Fin (loglikelihood_decm_exp n ko ki so si x).
Proof.
  intros HD. unfold floglikelihood_decm_exp, loglikelihood_decm_exp. cbv zeta. apply loop_fin. intros i f Hi.
  assert (E : forall (w g v : R), (if Req_EM_T w 0 then Fin g else fsub (Fin g) (Fin (w * v))) = Fin (if Req_EM_T w 0 then g else g - w * v))
    by (intros w g v; destruct (Req_EM_T w 0); reflexivity).
  rewrite !E. apply loop_fin. intros j g Hj. destruct (Nat.eqb_spec i j) as [|Hij]; cbn [negb]; [reflexivity|].
  pose proof (exp_pair_lt _ _ (HD i j Hi Hj Hij)) as L. rewrite <- exp_plus in L.
  replace (- x (i + 2 * n)%nat + - x (j + 3 * n)%nat) with (- x (i + 2 * n)%nat - x (j + 3 * n)%nat) in L by ring.
  assert (P : 0 < exp (- x i - x (j + n)%nat) * exp (- x (i + 2 * n)%nat - x (j + 3 * n)%nat) / (1 - exp (- x (i + 2 * n)%nat - x (j + 3 * n)%nat)))
    by (apply Rdiv_lt_0_compat; [apply Rmult_lt_0_compat; apply exp_pos|lra]).
  rewrite flog_pos by lra. reflexivity.
Qed.
(** The fixed-point maps with a logarithm, where the quotient is positive. *)
Lemma fiterative_cm_exp_fin n k c x i : 0 < k i ->
  0 <= loop n 0 (fun j fx => if Nat.eqb i j then fx + (c j - 1) * (exp (- x j) / (1 + exp (- x j) * exp (- x i)))
                             else fx + c j * (exp (- x j) / (1 + exp (- x j) * exp (- x i)))) ->
  fiterative_cm_exp n k c x i = Fin (iterative_cm_exp n k c x i).
Proof.
  intros Hk. unfold fiterative_cm_exp, iterative_cm_exp. cbv zeta. set (fx := loop _ _ _). intros H.
  destruct (Req_EM_T fx 0) as [|N]; [reflexivity|]. unfold fneglog.
  destruct (Rlt_dec 0 (k i / fx)) as [|Z]; [reflexivity|]. elim Z. apply Rdiv_lt_0_compat; [exact Hk|]. lra.
Qed.
Lemma loop_nonneg n (a0 : R) (b : nat -> R -> R) : 0 <= a0 -> (forall j f, (j < n)%nat -> 0 <= f -> 0 <= b j f) -> 0 <= loop n a0 b.
Proof.
  intros Ha. induction n as [|n IH]; intros H; [exact Ha|]. rewrite loop_S. apply H; [lia|]. apply IH. intros j f Hj. apply H. lia.
Qed.
Lemma fcm_exp_map_fin n k c x i : 0 < k i -> (forall j, (j < n)%nat -> 1 <= c j) ->
  fiterative_cm_exp n k c x i = Fin (iterative_cm_exp n k c x i).
Proof.
  intros Hk Hc. apply fiterative_cm_exp_fin; [exact Hk|]. apply loop_nonneg; [lra|]. intros j f Hj Hf.
  assert (P : 0 < exp (- x j) / (1 + exp (- x j) * exp (- x i))).
  { pose proof (exp_pos (- x j)). pose proof (exp_pos (- x i)). apply Rdiv_lt_0_compat; [assumption|].
    assert (0 < exp (- x j) * exp (- x i)) by (apply Rmult_lt_0_compat; assumption). lra. }
  specialize (Hc j Hj). destruct (Nat.eqb i j).
  - pose proof (Rmult_le_pos (c j - 1) _ ltac:(lra) (Rlt_le _ _ P)). lra.
  - pose proof (Rmult_le_pos (c j) _ ltac:(lra) (Rlt_le _ _ P)). lra.
Qed.
Lemma fneglog_quot k v : 0 < k -> 0 <= v -> (if Req_EM_T v 0 then Fin 0 else fneglog (Fin (k / v))) = Fin (if Req_EM_T v 0 then 0 else - ln (k / v)).
Proof.
  intros Hk Hv. destruct (Req_EM_T v 0) as [|N]; [reflexivity|]. unfold fneglog.
  destruct (Rlt_dec 0 (k / v)) as [|Z]; [reflexivity|]. elim Z. apply Rdiv_lt_0_compat; lra.
Qed.
Lemma fecm_exp_map_fin n k s x r : ecm_exp_dom n x -> (forall i, (i < n)%nat -> 0 < k i /\ 0 < s i) -> (r < 2 * n)%nat ->
  fiterative_ecm_exp n k s x r = Fin (iterative_ecm_exp n k s x r).
Proof.
  intros HD Hk Hr. unfold fiterative_ecm_exp, iterative_ecm_exp. cbv zeta.
  assert (Q : forall i j, (i < n)%nat -> (j < n)%nat -> i <> j ->
    let a1 := exp (- x i) * exp (- x j) in let a2 := exp (- x (i + n)%nat) * exp (- x (j + n)%nat) in
    0 < a1 /\ 0 < a2 /\ 0 < 1 - a2 /\ 0 < 1 - a2 + a1 * a2).
  { intros i j Hi Hj Hij a1 a2. assert (0 < a1) by (apply Rmult_lt_0_compat; apply exp_pos). assert (0 < a2) by (apply Rmult_lt_0_compat; apply exp_pos).
    assert (a2 < 1) by (apply exp_pair_lt, HD; assumption). repeat split; try assumption; [lra|]. apply pair_pos; lra. }
  destruct (Nat.ltb_spec r n) as [L|L].
  - apply fneglog_quot; [apply Hk; exact L|]. apply loop_nonneg; [lra|]. intros j f Hj Hf.
    destruct (Nat.eqb_spec r j) as [|N]; cbn [negb]; [exact Hf|]. destruct (Q r j L Hj N) as (Q1 & Q2 & Q3 & Q4).
    assert (0 < exp (- x j) * (exp (- x (r + n)%nat) * exp (- x (j + n)%nat)) / (1 - exp (- x (r + n)%nat) * exp (- x (j + n)%nat) + exp (- x r) * exp (- x j) * (exp (- x (r + n)%nat) * exp (- x (j + n)%nat)))).
    { apply Rdiv_lt_0_compat; [apply Rmult_lt_0_compat; [apply exp_pos|exact Q2]|exact Q4]. } lra.
  - assert (L' : (r - n < n)%nat) by lia. apply fneglog_quot; [apply Hk; exact L'|]. apply loop_nonneg; [lra|]. intros j f Hj Hf.
    destruct (Nat.eqb_spec (r - n) j) as [|N]; cbn [negb]; [exact Hf|]. destruct (Q (r - n)%nat j L' Hj N) as (Q1 & Q2 & Q3 & Q4).
    match goal with |- 0 <= f + ?q => assert (0 < q); [|lra] end.
    apply Rdiv_lt_0_compat; [apply Rmult_lt_0_compat; [exact Q1|apply exp_pos]|apply Rmult_lt_0_compat; [exact Q3|exact Q4]].
Qed.
Lemma fdiv_fin a b : b <> 0 -> fdiv a b = Fin (a / b).
Proof. intros H. unfold fdiv. destruct (Req_EM_T b 0); [contradiction|reflexivity]. Qed.
Lemma fdecm_exp_prime_fin n ko ki so si x r : decm_exp_divisors n x = true -> (r < 4 * n)%nat ->
  floglikelihood_prime_decm_exp n ko ki so si x r = Fin (loglikelihood_prime_decm_exp n ko ki so si x r).
Proof.
  intros HD Hr. unfold decm_exp_divisors, decm_pair_divisors in HD. rewrite every_other_true in HD. cbv zeta in HD.
  assert (Q : forall i j, (i < n)%nat -> (j < n)%nat -> i <> j ->
    let t := exp (- x (i + 2 * n)%nat) * exp (- x (j + 3 * n)%nat) in let z := exp (- x i) * exp (- x (j + n)%nat) in
    1 - t <> 0 /\ 1 - t + t * z <> 0).
  { intros i j Hi Hj Hij t z. specialize (HD i j Hi Hj Hij). apply andb_true_iff in HD. destruct HD as [D1 D2].
    apply nonzero_true in D1, D2. split; [exact D1|]. rewrite (Rmult_comm t z). exact D2. }
  assert (M : forall a b : R, a <> 0 -> b <> 0 -> a * b <> 0) by (intros; apply Rmult_integral_contrapositive_currified; assumption).
  unfold floglikelihood_prime_decm_exp, loglikelihood_prime_decm_exp, by_block. cbv zeta.
  assert (S : forall i a (f : nat -> fval) (g : nat -> R), (forall j, (j < n)%nat -> i <> j -> f j = Fin (g j)) ->
    fadd (Fin a) (loop n (Fin 0) (fun j acc => if negb (Nat.eqb i j) then fadd acc (f j) else acc)) =
    Fin (a + loop n 0 (fun j acc => if negb (Nat.eqb i j) then acc + g j else acc))).
  { intros i a f g H. rewrite (loop_fin n 0 _ (fun j acc => if negb (Nat.eqb i j) then acc + g j else acc)); [reflexivity|].
    intros j acc Hj. destruct (Nat.eqb_spec i j) as [|N]; cbn [negb]; [reflexivity|]. rewrite (H j Hj N). reflexivity. }
  assert (B : (pos n r < n)%nat).
  { unfold pos, blk. repeat match goal with |- context [Nat.ltb ?p ?q] => destruct (Nat.ltb_spec p q) end; lia. }
  destruct (blk n r) as [|[|[|]]]; apply S; intros j Hj Hij.
  - destruct (Q (pos n r) j B Hj Hij) as [Q1 Q2]. apply fdiv_fin. exact Q2.
  - destruct (Q j (pos n r) Hj B (not_eq_sym Hij)) as [Q1 Q2]. apply fdiv_fin. exact Q2.
  - destruct (Q (pos n r) j B Hj Hij) as [Q1 Q2]. apply fdiv_fin. apply M; assumption.
  - destruct (Q j (pos n r) Hj B (not_eq_sym Hij)) as [Q1 Q2]. apply fdiv_fin. apply M; assumption.
Qed.

Definition fin (r : option R) : option fval := match r with Some a => Some (Fin a) | None => None end.
Lemma oloop_fin n (a0 : R) (fb : nat -> fval -> option fval) (b : nat -> R -> option R) :
  (forall i a, (i < n)%nat -> fb i (Fin a) = fin (b i a)) -> oloop n (Fin a0) fb = fin (oloop n a0 b).
Proof.
  unfold oloop. induction n as [|n IH]; intros H; [reflexivity|]. rewrite !loop_S, IH by (intros; apply H; lia).
  destruct (loop n (Some a0) _); [apply H; lia|reflexivity].
Qed.
Lemma olloop_fin l (a0 : R) (fb : nat -> fval -> option fval) (b : nat -> R -> option R) :
  (forall i a, In i l -> fb i (Fin a) = fin (b i a)) -> olloop l (Fin a0) fb = fin (olloop l a0 b).
Proof.
  unfold olloop, lloop. revert a0. assert (G : forall o, (forall i a, In i l -> fb i (Fin a) = fin (b i a)) ->
    fold_left (fun a i => obind a (fb i)) l (fin o) = fin (fold_left (fun a i => obind a (b i)) l o)).
  { induction l as [|i l IH]; intros o H; [reflexivity|]. cbn [fold_left].
    replace (obind (fin o) (fb i)) with (fin (obind o (b i))); [apply IH; intros; apply H; right; assumption|].
    destruct o; [symmetry; apply H; left; reflexivity|reflexivity]. }
  intros a0 H. exact (G (Some a0) H).
Qed.
Lemma fsparse_fin n s x beta : (forall i j, (j < i < n)%nat -> x i * x j <> 0 -> 0 < beta i + beta j) ->
  floglikelihood_crema_undirected_sparse n s x beta = fin (loglikelihood_crema_undirected_sparse n s x beta).
Proof.
  intros H. apply oloop_fin. intros i a Hi. cbv zeta. apply (oloop_fin i (a - s i * beta i)). intros j f Hj. cbv zeta.
  unfold sdiv. destruct (Req_EM_T (1 + x i * x j) 0); [reflexivity|]. cbn [obind].
  destruct (Rlt_dec 0 (x i * x j / (1 + x i * x j))) as [L|L]; [|reflexivity].
  rewrite fmul_fin_log; [reflexivity|]. apply H; [lia|]. intros Z. rewrite Z in L. unfold Rdiv in L. rewrite Rmult_0_l in L. lra.
Qed.
Lemma fdir_sparse_fin n so si x y nzo nzi beta :
  (forall i j, In i nzo -> In j nzi -> i <> j -> x i * y j <> 0 -> 0 < beta i + beta (j + n)%nat) ->
  floglikelihood_crema_directed_sparse n so si x y nzo nzi beta = fin (loglikelihood_crema_directed_sparse n so si x y nzo nzi beta).
Proof.
  intros H. unfold floglikelihood_crema_directed_sparse, loglikelihood_crema_directed_sparse.
  match goal with |- _ = fin (obind (olloop nzo 0 ?b) _) => rewrite (olloop_fin nzo 0 _ b) end;
    [|intros i a Hi; apply (olloop_fin nzi (a - so i * beta i))].
  - match goal with |- obind (fin ?o) _ = _ => destruct o as [r|]; [|reflexivity] end. cbn [fin obind]. f_equal.
    apply lloop_fin. intros i a Hi. reflexivity.
  - intros j f Hj. destruct (Nat.eqb_spec i j) as [|N]; cbn [negb]; [reflexivity|]. unfold sdiv. destruct (Req_EM_T (1 + x i * y j) 0); [reflexivity|]. cbn [obind].
    destruct (Rlt_dec 0 (x i * y j / (1 + x i * y j))) as [L|L]; [|reflexivity].
    rewrite fmul_fin_log; [reflexivity|]. apply H; [assumption..|]. intros Z. rewrite Z in L. unfold Rdiv in L. rewrite Rmult_0_l in L. lra.
Qed.
