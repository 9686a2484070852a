(** Runs that are bound to reach their tolerance: networks. *)
From Coq Require Import Reals ZArith List Arith Bool String Lia Lra.
From Verif Require Import Base SpecGraph SpecWeighted SpecDirected SpecLinsearch SpecSolver SpecDispatch SpecRun SpecReach
  ModelCM ModelECM ModelDCM ModelDECM ModelSolver ModelDispatch ModelRun.
From Verif Require Import ProofsGraph ProofsList ProofsCM ProofsMainDCM ProofsMainECM ProofsMainDECM ProofsConverged ProofsRun ProofsReach ProofsReachU ProofsSpectral WitnessRun.
From Verif Require ProofsTool.
Import ListNotations.
Local Open Scope R_scope.

Lemma nat_above r : exists M, r < INR M.
Proof.
  destruct (archimed r) as [H _]. exists (Z.to_nat (up r)). rewrite INR_IZR_INZ. apply Rlt_le_trans with (1 := H). apply IZR_le. lia.
Qed.

(** ** A probability is at most 1 *)
Lemma rprod_unit n f : (forall i, (i < n)%nat -> 0 <= f i <= 1) -> 0 <= rprod n f <= 1.
Proof.
  induction n as [|n IH]; intros H; cbn [rprod]; [lra|]. specialize (IH (fun i Hi => H i ltac:(lia))). specialize (H n ltac:(lia)).
  split; [apply Rmult_le_pos; lra|]. replace 1 with (1 * 1) by ring. apply Rmult_le_compat; lra.
Qed.
Lemma ln_unit p : 0 <= p <= 1 -> ln p <= 0.
Proof.
  intros [H0 H1]. destruct (Rlt_dec 0 p) as [Hp|Hp].
  - rewrite <- ln_1. apply Rcomplements.ln_le; assumption.
  - unfold ln. destruct (Rlt_dec 0 p); [contradiction|lra].
Qed.
Lemma link_unit a b : 0 <= a -> 0 <= b -> 0 <= a * b / (1 + a * b) <= 1.
Proof.
  intros Ha Hb. assert (0 <= a * b) by (apply Rmult_le_pos; assumption). split.
  - apply Rmult_le_pos; [assumption|]. left. apply Rinv_0_lt_compat. lra.
  - apply Rmult_le_reg_r with (1 + a * b); [lra|]. unfold Rdiv. rewrite Rmult_assoc, Rinv_l by lra. lra.
Qed.
Lemma prob_undirected_unit n x a : (forall i, (i < n)%nat -> 0 <= x i) -> 0 <= prob_undirected n (p_ubcm x) a <= 1.
Proof.
  intros H. unfold prob_undirected. apply rprod_unit. intros i Hi. apply rprod_unit. intros j Hj.
  pose proof (link_unit (x j) (x i) (H j ltac:(lia)) (H i Hi)). unfold p_ubcm. destruct (a j i); lra.
Qed.
Lemma prob_directed_unit n x y a : (forall i, (i < n)%nat -> 0 <= x i) -> (forall i, (i < n)%nat -> 0 <= y i) -> 0 <= prob_directed n (p_dbcm x y) a <= 1.
Proof.
  intros Hx Hy. unfold prob_directed. apply rprod_unit. intros i Hi. apply rprod_unit. intros j Hj.
  pose proof (link_unit (x i) (y j) (Hx i Hi) (Hy j Hj)). unfold p_dbcm. destruct (Nat.eqb i j); [lra|]. destruct (a i j); lra.
Qed.

Lemma q_enh_unit z y w : 0 < z -> 0 < y < 1 -> 0 <= q_enh z y w <= 1.
Proof.
  intros Hz Hy. assert (Hzy : 0 < z * y) by (apply Rmult_lt_0_compat; lra). assert (Hd : 0 < 1 - y + z * y) by lra.
  assert (F : 0 <= (1 - y) / (1 - y + z * y)) by (apply Rmult_le_pos; [lra|left; apply Rinv_0_lt_compat; exact Hd]).
  assert (Py : forall w, 0 <= y ^ w <= 1).
  { intros v. induction v as [|v IH]; cbn [pow]; [lra|]. split; [apply Rmult_le_pos; lra|]. replace 1 with (1 * 1) by ring. apply Rmult_le_compat; lra. }
  unfold q_enh. destruct w as [|w]; cbn [pow].
  - change (linked 0) with false. cbv iota. split; [lra|]. rewrite !Rmult_1_l. apply Rmult_le_reg_r with (1 - y + z * y); [exact Hd|]. unfold Rdiv. rewrite Rmult_assoc, Rinv_l by lra. lra.
  - change (linked (S w)) with true. cbv iota. specialize (Py w). split.
    + apply Rmult_le_pos; [|exact F]. apply Rmult_le_pos; [lra|]. apply Rmult_le_pos; lra.
    + replace (z * (y * y ^ w) * ((1 - y) / (1 - y + z * y))) with (z * y / (1 - y + z * y) * (y ^ w * (1 - y))) by (field; lra).
      assert (Q : 0 <= z * y / (1 - y + z * y) <= 1).
      { split; [apply Rmult_le_pos; [lra|left; apply Rinv_0_lt_compat; exact Hd]|]. apply Rmult_le_reg_r with (1 - y + z * y); [exact Hd|]. unfold Rdiv. rewrite Rmult_assoc, Rinv_l by lra. lra. }
      assert (Q2 : 0 <= y ^ w * (1 - y) <= 1 * 1) by (split; [apply Rmult_le_pos; lra|apply Rmult_le_compat; lra]).
      apply Rle_trans with (1 * (1 * 1)); [apply Rmult_le_compat; lra|lra].
Qed.

(** ** Log-likelihoods of networks are not positive *)
Lemma cm_bound N m cls c k a : simple_graph N a -> classes N m cls c -> (forall i, (i < N)%nat -> k (cls i) = deg N a i) ->
  forall z, positive_upto m z -> loglikelihood_cm m k c z <= 0.
Proof.
  intros Ha HC Hk z Hz. rewrite (loglik_cm_logprob N m cls c k z a Ha HC Hk Hz). apply ln_unit. apply prob_undirected_unit. intros i Hi. left. apply Hz. apply HC. exact Hi.
Qed.
Lemma cm_exp_bound N m cls c k a : simple_graph N a -> classes N m cls c -> (forall i, (i < N)%nat -> k (cls i) = deg N a i) ->
  forall z, loglikelihood_cm_exp m k c z <= 0.
Proof.
  intros Ha HC Hk z. rewrite (loglik_cm_exp_logprob N m cls c k z a Ha HC Hk). apply ln_unit. apply prob_undirected_unit. intros; left; apply exp_pos.
Qed.
Lemma ecm_exp_bound n k s w : weighted_graph n w -> (forall i, (i < n)%nat -> k i = wdeg n w i) -> (forall i, (i < n)%nat -> s i = wstr n w i) ->
  forall z, ecm_exp_dom n z -> loglikelihood_ecm_exp n k s z <= 0.
Proof.
  intros Hw Hk Hs z Hz. rewrite (loglik_ecm_exp_logprob n k s z w Hw Hk Hs Hz). apply ln_unit. unfold prob_wundirected.
  apply rprod_unit. intros i Hi. apply rprod_unit. intros j Hj. apply q_enh_unit; rewrite <- exp_plus; [apply exp_pos|].
  split; [apply exp_pos|]. rewrite <- exp_0. apply exp_increasing. specialize (Hz j i ltac:(lia) Hi ltac:(lia)). lra.
Qed.
Lemma decm_exp_bound n ko ki so si w : weighted_digraph n w ->
  (forall i, (i < n)%nat -> ko i = wdeg n w i) -> (forall i, (i < n)%nat -> ki i = windeg n w i) ->
  (forall i, (i < n)%nat -> so i = wstr n w i) -> (forall i, (i < n)%nat -> si i = winstr n w i) ->
  forall z, decm_exp_dom n z -> loglikelihood_decm_exp n ko ki so si z <= 0.
Proof.
  intros Hw H1 H2 H3 H4 z Hz. rewrite (loglik_decm_exp_logprob n ko ki so si z w Hw H1 H2 H3 H4 Hz). apply ln_unit. unfold prob_wdirected.
  apply rprod_unit. intros i Hi. apply rprod_unit. intros j Hj. destruct (Nat.eqb_spec i j) as [|Hij]; [lra|]. apply q_enh_unit; rewrite <- exp_plus; [apply exp_pos|].
  split; [apply exp_pos|]. rewrite <- exp_0. apply exp_increasing. specialize (Hz i j Hi Hj Hij). lra.
Qed.

(** ** Classes *)
Lemma classes_size n m cls c : classes n m cls c -> rsum m c = INR n.
Proof.
  intros [H1 H2]. rewrite (rsum_ext m c (fun q => rsum n (fun i => ind (Nat.eqb (cls i) q)))) by (intros; apply H2; assumption).
  rewrite (rsum_swap m n). rewrite (rsum_ext n _ (fun _ => 1)); [rewrite rsum_const; ring|].
  intros i Hi. rewrite (rsum_ext m _ (fun q => if Nat.eqb q (cls i) then (fun _ => 1) q else 0)).
  - rewrite rsum_single by (apply H1; exact Hi). reflexivity.
  - intros q _. rewrite Nat.eqb_sym. unfold ind. destruct (Nat.eqb q (cls i)); reflexivity.
Qed.
Lemma classes_count n m cls c : classes n m cls c -> inhabited_classes n m cls -> forall q, (q < m)%nat -> 1 <= c q.
Proof.
  intros [H1 H2] HI q Hq. destruct (HI q Hq) as (i & Hi & E). rewrite H2 by exact Hq.
  rewrite (rsum_pull n i) by exact Hi. rewrite E, Nat.eqb_refl. cbn [ind].
  match goal with |- 1 <= ?a => assert (1 + 0 <= a); [|lra] end. apply Rplus_le_compat_l. apply rsum_nonneg. intros j _.
  unfold ind. destruct (Nat.eqb j i); [lra|]. destruct (Nat.eqb _ q); lra.
Qed.
Lemma deg_range n a i : loopless n a -> (i < n)%nat -> 0 <= deg n a i <= INR n - 1.
Proof.
  intros Ha Hi. unfold deg. split; [apply rsum_nonneg; intros j _; unfold ind; destruct (a i j); lra|].
  rewrite (rsum_pull n i) by exact Hi. rewrite (Ha i Hi). cbn [ind].
  apply Rle_trans with (0 + rsum n (fun j => if Nat.eqb j i then 0 else 1)).
  - apply Rplus_le_compat_l. apply rsum_le. intros j _. destruct (Nat.eqb j i); [lra|]. unfold ind. destruct (a i j); lra.
  - assert (E : rsum n (fun _ => 1) = 1 + rsum n (fun j => if Nat.eqb j i then 0 else 1)) by (apply (rsum_pull n i (fun _ => 1) Hi)).
    rewrite rsum_const in E. lra.
Qed.
Lemma indeg_range n a i : loopless n a -> (i < n)%nat -> 0 <= indeg n a i <= INR n - 1.
Proof. intros Ha Hi. apply (deg_range n (fun i j => a j i) i); [intros j Hj; apply Ha; exact Hj|exact Hi]. Qed.

Section Networks.
  Variables (linsolve : (nat -> nat -> R) -> (nat -> R) -> option (nat -> R)) (ok : (nat -> nat -> R) -> bool)
    (eigh : (nat -> nat -> R) -> (nat -> R) * (nat -> nat -> R)) (fuel : nat).
  Lemma cm_exp_network_reaches reg meth N m cls c k a W O x0 :
    linear_solver m linsolve -> solves_definite m linsolve -> eigen_solver m eigh -> In meth descent_methods -> documented O meth ->
    simple_graph N a -> classes N m cls c -> inhabited_classes N m cls -> (0 < N)%nat -> (forall i, (i < N)%nat -> k (cls i) = deg N a i) ->
    0 < W -> (forall q, (q < m)%nat -> c q * (INR N - 1) <= W) -> ample m W (- loglikelihood_cm_exp m k c x0) O ->
    accepted u_dispatch "cm_exp" meth reg (run_reaches linsolve ok eigh fuel m (A2 m k c) O W (- loglikelihood_cm_exp m k c x0) x0
      (fun x => forall i, (i < N)%nat -> Rabs (deg N a i - expected_degree_cm N (fun j => exp (- x (cls j))) i) <= o_tol O / c (cls i))).
  Proof.
    intros HL HD HE Hm HO Ha HC HI HN Hk HW Hw HA.
    assert (H0 : (0 < m)%nat) by (destruct HC as [H1 _]; specialize (H1 0%nat HN); lia).
    pose proof (classes_size _ _ _ _ HC) as Sz. pose proof (classes_count _ _ _ _ HC HI) as Cn.
    destruct (cm_exp_reaches linsolve ok eigh fuel reg meth m k c W 0 O x0 HL HD HE Hm HO H0 HW Cn) as (D & ED & Hf & x & kk & ns & ds & als & norm & Hrun & En & Hle & Hit).
    - rewrite Sz. exact Hw.
    - rewrite Sz. intros q Hq. destruct (HI q Hq) as (i & Hi & <-). rewrite Hk by exact Hi. apply deg_range; [intros j Hj; apply Ha; exact Hj|exact Hi].
    - exact (cm_exp_bound N m cls c k a Ha HC Hk).
    - replace (0 - loglikelihood_cm_exp m k c x0) with (- loglikelihood_cm_exp m k c x0) by ring. exact HA.
    - exists D. split; [exact ED|]. exists x, kk, ns, ds, als, norm. split; [exact Hrun|]. split; [exact En|]. split; [exact Hle|]. split; [lra|].
      intros i Hi. rewrite <- Hk by exact Hi.
      apply (converged_cm_exp _ N m cls c k (run_numerics linsolve ok m) (run_problem eigh fuel m D (A2 m k c)) O x0 x HC (ProofsTool.run_exact linsolve ok m) (fun z f Ef q _ => ProofsTool.when_some true _ _ (eq_trans (eq_sym (Hf z)) Ef) q)); [|exact Hi].
      exists kk, ns, ds, als, norm. split; [exact Hrun|]. split; [exact En|]. cbn [gtb run_numerics]. destruct (Rlt_dec (o_tol O) norm); [lra|reflexivity].
  Qed.
  Lemma dcm_exp_network_reaches reg meth N m cls c ko ki nzo nzi a W O x0 :
    linear_solver (2 * m) linsolve -> solves_definite (2 * m) linsolve -> eigen_solver (2 * m) eigh -> In meth descent_methods -> documented O meth ->
    loopless N a -> classes N m cls c -> inhabited_classes N m cls -> (0 < N)%nat -> nonzero_list m ko nzo -> nonzero_list m ki nzi ->
    (forall i, (i < N)%nat -> ko (cls i) = deg N a i) -> (forall i, (i < N)%nat -> ki (cls i) = indeg N a i) ->
    0 < W -> (forall q, (q < m)%nat -> c q * (INR N - 1) <= W) -> ample (2 * m) W (- loglikelihood_dcm_exp m ko ki nzo nzi c x0) O ->
    accepted d_dispatch "dcm_exp" meth reg (run_reaches linsolve ok eigh fuel (2 * m) (A5d m ko ki nzo nzi c) O W (- loglikelihood_dcm_exp m ko ki nzo nzi c x0) x0
      (fun x => forall i, (i < N)%nat ->
        Rabs (deg N a i - expected_out_degree_dcm N (expand N m cls (multipliers m nzo nzi x)) i) <= o_tol O / c (cls i) /\
        Rabs (indeg N a i - expected_in_degree_dcm N (expand N m cls (multipliers m nzo nzi x)) i) <= o_tol O / c (cls i))).
  Proof.
    intros HL HD HE Hm HO Ha HC HI HN No Ni Hko Hki HW Hw HA.
    assert (H0 : (0 < m)%nat) by (destruct HC as [H1 _]; specialize (H1 0%nat HN); lia).
    pose proof (classes_size _ _ _ _ HC) as Sz. pose proof (classes_count _ _ _ _ HC HI) as Cn.
    assert (Io : index_list m nzo) by (split; [apply No|intros i Hi; apply No; exact Hi]).
    assert (Ii : index_list m nzi) by (split; [apply Ni|intros i Hi; apply Ni; exact Hi]).
    assert (Mo : forall z i, In i nzo -> multipliers m nzo nzi z i = exp (- z i)).
    { intros z i Hi. unfold multipliers. destruct (Nat.ltb_spec i m) as [L|L]; [rewrite (proj2 (memb_In i nzo) Hi); reflexivity|]. exfalso. apply Io in Hi. lia. }
    assert (Mi : forall z i, In i nzi -> multipliers m nzo nzi z (i + m)%nat = exp (- z (i + m)%nat)).
    { intros z i Hi. unfold multipliers. destruct (Nat.ltb_spec (i + m) m) as [L|L]; [exfalso; lia|]. replace (i + m - m)%nat with i by lia. rewrite (proj2 (memb_In i nzi) Hi). reflexivity. }
    assert (Fu : forall z, dcm_full m nzo nzi (multipliers m nzo nzi z)).
    { intros z. split; [split; intros i Hi; [rewrite Mo by exact Hi|rewrite Mi by exact Hi]; apply exp_pos|]. split.
      - intros i Hi Hn. unfold multipliers. rewrite (proj2 (Nat.ltb_lt i m) Hi). destruct (memb_spec i nzo); [contradiction|reflexivity].
      - intros i Hi Hn. unfold multipliers. destruct (Nat.ltb_spec (i + m) m) as [L|L]; [exfalso; lia|]. replace (i + m - m)%nat with i by lia.
        destruct (memb_spec i nzi); [contradiction|reflexivity]. }
    assert (Nn : forall z q, 0 <= multipliers m nzo nzi z q).
    { intros z q. unfold multipliers. destruct (Nat.ltb q m); [destruct (memb q nzo)|destruct (memb (q - m) nzi)]; try lra; left; apply exp_pos. }
    destruct (dcm_exp_reaches linsolve ok eigh fuel reg meth m ko ki nzo nzi c W 0 O x0 HL HD HE Hm HO H0 HW Cn) as (D & ED & Hf & x & kk & ns & ds & als & norm & Hrun & En & Hle & Hit).
    - rewrite Sz. exact Hw.
    - rewrite Sz. intros q Hq. destruct (HI q Hq) as (i & Hi & <-). rewrite Hko by exact Hi. apply deg_range; assumption.
    - rewrite Sz. intros q Hq. destruct (HI q Hq) as (i & Hi & <-). rewrite Hki by exact Hi. apply indeg_range; assumption.
    - exact Io.
    - exact Ii.
    - intros z. rewrite (loglik_dcm_exp_logprob N m cls ko ki nzo nzi c z (multipliers m nzo nzi z) a Ha HC No Ni (Fu z) (Mo z) (Mi z) Hko Hki).
      apply ln_unit. apply prob_directed_unit; intros; apply Nn.
    - replace (0 - loglikelihood_dcm_exp m ko ki nzo nzi c x0) with (- loglikelihood_dcm_exp m ko ki nzo nzi c x0) by ring. exact HA.
    - exists D. split; [exact ED|]. exists x, kk, ns, ds, als, norm. split; [exact Hrun|]. split; [exact En|]. split; [exact Hle|]. split; [lra|].
      intros i Hi. rewrite <- Hko, <- Hki by exact Hi.
      apply (converged_dcm_exp _ N m cls ko ki nzo nzi c (run_numerics linsolve ok (2 * m)) (run_problem eigh fuel (2 * m) D (A5d m ko ki nzo nzi c)) O x0 x (multipliers m nzo nzi x) HC No Ni (ProofsTool.run_exact linsolve ok (2 * m)));
        [left; apply HA|exact (fun z f Ef q _ => ProofsTool.when_some true _ _ (eq_trans (eq_sym (Hf z)) Ef) q)| |apply Fu|apply Mo|apply Mi|exact Hi].
      exists kk, ns, ds, als, norm. split; [exact Hrun|]. split; [exact En|]. cbn [gtb run_numerics]. destruct (Rlt_dec (o_tol O) norm); [lra|reflexivity].
  Qed.

  (** ** Any network, any tolerance *)
  Lemma ample_eventually m W room O : (0 < m)%nat -> 0 < W -> 0 < o_regularise_eps O -> 0 < o_tol O -> o_verbose O = false -> o_full_return O = true ->
    sqrt (INR m) < 2 ^ 48 * o_regularise_eps O -> eventually (fun M e => ample m W room (with_budget O M e)).
  Proof.
    intros Hm HW He Ht Hv Hf Hh.
    assert (Ha : 0 < least_alfa m O).
    { unfold least_alfa. apply Rmin_glb_lt; [lra|]. apply Rdiv_lt_0_compat; [exact He|]. apply Rmult_lt_0_compat; [lra|]. apply sqrt_lt_R0, lt_0_INR. exact Hm. }
    assert (HLam : 0 < most_curvature W O) by (unfold most_curvature; apply Rmult_lt_0_compat; lra).
    assert (Hr : 0 < least_rise m W O).
    { unfold least_rise. apply Rmult_lt_0_compat; [apply Rmult_lt_0_compat; lra|]. apply Rdiv_lt_0_compat; [apply Rmult_lt_0_compat; exact Ht|exact HLam]. }
    assert (Hmv : 0 < least_move m W O) by (unfold least_move; apply Rmult_lt_0_compat; [exact Ha|]; apply Rdiv_lt_0_compat; assumption).
    destruct (nat_above (room / least_rise m W O)) as [M HM].
    exists M, (Rmin (/ 2) (least_move m W O)). split; [apply Rmin_glb_lt; lra|]. intros M' e HMM [E0 E1].
    pose proof (Rmin_l (/ 2) (least_move m W O)). pose proof (Rmin_r (/ 2) (least_move m W O)).
    split; [exact Ht|]. split; [exact Hv|]. split; [exact Hf|]. split; [exact Hh|]. cbn [o_eps o_max_steps with_budget]. split; [lra|]. split; [apply Rle_trans with (1 := E1); apply Rmin_r|].
    change (least_rise m W (with_budget O M' e)) with (least_rise m W O). apply le_INR in HMM.
    apply Rlt_le_trans with (INR M * least_rise m W O); [|apply Rmult_le_compat_r; lra].
    apply Rmult_lt_reg_r with (/ least_rise m W O); [apply Rinv_0_lt_compat; exact Hr|]. rewrite Rmult_assoc, Rinv_r, Rmult_1_r by lra. apply HM.
  Qed.
  Lemma classes_le n m cls c q : classes n m cls c -> (q < m)%nat -> c q <= INR n.
  Proof.
    intros [_ H] Hq. rewrite H by exact Hq. apply Rle_trans with (rsum n (fun _ => 1)); [|rewrite rsum_const; lra].
    apply rsum_le. intros i _. unfold ind. destruct (Nat.eqb _ q); lra.
  Qed.
  Lemma square_bound n m cls c q : classes n m cls c -> inhabited_classes n m cls -> (0 < n)%nat -> (q < m)%nat -> c q * (INR n - 1) <= INR n * INR n.
  Proof.
    intros HC HI Hn Hq. pose proof (classes_le _ _ _ _ q HC Hq). pose proof (classes_count _ _ _ _ HC HI q Hq).
    assert (1 <= INR n) by (change 1 with (INR 1); apply le_INR; lia). apply Rmult_le_compat; lra.
  Qed.
  Lemma cm_exp_converges reg meth N m cls c k a O x0 :
    linear_solver m linsolve -> solves_definite m linsolve -> eigen_solver m eigh -> In meth descent_methods -> documented O meth ->
    simple_graph N a -> classes N m cls c -> inhabited_classes N m cls -> (0 < N)%nat -> (forall i, (i < N)%nat -> k (cls i) = deg N a i) ->
    0 < o_tol O -> o_verbose O = false -> o_full_return O = true -> sqrt (INR m) < 2 ^ 48 * o_regularise_eps O ->
    eventually (fun M e => accepted u_dispatch "cm_exp" meth reg (run_reaches linsolve ok eigh fuel m (A2 m k c) (with_budget O M e) (INR N * INR N)
      (- loglikelihood_cm_exp m k c x0) x0
      (fun x => forall i, (i < N)%nat -> Rabs (deg N a i - expected_degree_cm N (fun j => exp (- x (cls j))) i) <= o_tol O / c (cls i)))).
  Proof.
    intros HL HD HE Hm HO Ha HC HI HN Hk Ht Hv Hf Hh.
    assert (H0 : (0 < m)%nat) by (destruct HC as [H1 _]; specialize (H1 0%nat HN); lia).
    assert (HW : 0 < INR N * INR N) by (apply Rmult_lt_0_compat; apply lt_0_INR; exact HN).
    destruct (ample_eventually m (INR N * INR N) (- loglikelihood_cm_exp m k c x0) O H0 HW ltac:(apply HO) Ht Hv Hf Hh) as (M & e0 & He0 & H).
    exists M, e0. split; [exact He0|]. intros M' e HM He.
    exact (cm_exp_network_reaches reg meth N m cls c k a (INR N * INR N) (with_budget O M' e) x0 HL HD HE Hm HO Ha HC HI HN Hk HW
      (fun q Hq => square_bound N m cls c q HC HI HN Hq) (H M' e HM He)).
  Qed.
  Lemma dcm_exp_converges reg meth N m cls c ko ki nzo nzi a O x0 :
    linear_solver (2 * m) linsolve -> solves_definite (2 * m) linsolve -> eigen_solver (2 * m) eigh -> In meth descent_methods -> documented O meth ->
    loopless N a -> classes N m cls c -> inhabited_classes N m cls -> (0 < N)%nat -> nonzero_list m ko nzo -> nonzero_list m ki nzi ->
    (forall i, (i < N)%nat -> ko (cls i) = deg N a i) -> (forall i, (i < N)%nat -> ki (cls i) = indeg N a i) ->
    0 < o_tol O -> o_verbose O = false -> o_full_return O = true -> sqrt (INR (2 * m)) < 2 ^ 48 * o_regularise_eps O ->
    eventually (fun M e => accepted d_dispatch "dcm_exp" meth reg (run_reaches linsolve ok eigh fuel (2 * m) (A5d m ko ki nzo nzi c) (with_budget O M e) (INR N * INR N)
      (- loglikelihood_dcm_exp m ko ki nzo nzi c x0) x0
      (fun x => forall i, (i < N)%nat ->
        Rabs (deg N a i - expected_out_degree_dcm N (expand N m cls (multipliers m nzo nzi x)) i) <= o_tol O / c (cls i) /\
        Rabs (indeg N a i - expected_in_degree_dcm N (expand N m cls (multipliers m nzo nzi x)) i) <= o_tol O / c (cls i)))).
  Proof.
    intros HL HD HE Hm HO Ha HC HI HN No Ni Hko Hki Ht Hv Hf Hh.
    assert (H0 : (0 < m)%nat) by (destruct HC as [H1 _]; specialize (H1 0%nat HN); lia).
    assert (HW : 0 < INR N * INR N) by (apply Rmult_lt_0_compat; apply lt_0_INR; exact HN).
    destruct (ample_eventually (2 * m) (INR N * INR N) (- loglikelihood_dcm_exp m ko ki nzo nzi c x0) O ltac:(lia) HW ltac:(apply HO) Ht Hv Hf Hh) as (M & e0 & He0 & H).
    exists M, e0. split; [exact He0|]. intros M' e HM He.
    exact (dcm_exp_network_reaches reg meth N m cls c ko ki nzo nzi a (INR N * INR N) (with_budget O M' e) x0 HL HD HE Hm HO Ha HC HI HN No Ni Hko Hki HW
      (fun q Hq => square_bound N m cls c q HC HI HN Hq) (H M' e HM He)).
  Qed.
End Networks.

(** ** The contracts and the conditions can be met *)
Lemma solvers_exist m : exists linsolve eigh, linear_solver m linsolve /\ solves_definite m linsolve /\ eigen_solver m eigh.
Proof.
  destruct (eigen_solver_exists m) as [eigh HE]. destruct (linear_solver_exists m) as (linsolve & HL & HS). exists linsolve, eigh.
  split; [exact HL|]. split; [|exact HE]. intros B v Hs Hp.
  assert (D : exists d, forall i, (i < m)%nat -> apply_mat m B d i = v i).
  { destruct (HE B Hs) as (E1 & E2 & E3). set (t := fst (eigh B)) in *. set (e := snd (eigh B)) in *.
    assert (App : forall d i, (i < m)%nat -> apply_mat m B d i = rsum m (fun p => e i p * (t p * rsum m (fun j => e j p * d j)))).
    { intros d i Hi. unfold apply_mat. rewrite (rsum_ext m _ (fun j => rsum m (fun p => e i p * (t p * (e j p * d j))))).
      - rewrite rsum_swap. apply rsum_ext. intros p _. rewrite !rsum_scal_l. reflexivity.
      - intros j Hj. rewrite E3 by assumption. rewrite <- rsum_scal_r. apply rsum_ext. intros; ring. }
    assert (Pt : forall p, (p < m)%nat -> 0 < t p).
    { intros p Hpm. assert (Q : qform m B (fun i => e i p) = t p).
      { rewrite qform_apply. unfold SpecLinsearch.scalar. rewrite (rsum_ext m _ (fun i => e i p * e i p * t p)).
        - rewrite rsum_scal_r, E1, Nat.eqb_refl by assumption. ring.
        - intros i Hi. rewrite App by exact Hi. rewrite (rsum_ext m _ (fun q => if Nat.eqb q p then (fun q => e i q * t q) q else 0)).
          + rewrite rsum_single by exact Hpm. ring.
          + intros q Hq. rewrite E1 by assumption. destruct (Nat.eqb q p); ring. }
      rewrite <- Q. apply Hp. destruct (Classical_Prop.classic (exists i, (i < m)%nat /\ e i p <> 0)) as [H|H]; [exact H|exfalso].
      pose proof (E1 p p Hpm Hpm) as E. rewrite Nat.eqb_refl, (rsum_zero m) in E; [lra|].
      intros i Hi. destruct (Req_dec (e i p) 0) as [->|Hne]; [ring|]. exfalso. apply H. exists i. split; assumption. }
    exists (fun j => rsum m (fun q => e j q * (/ t q * rsum m (fun h => e h q * v h)))). intros i Hi. rewrite App by exact Hi.
    rewrite (rsum_ext m _ (fun p => rsum m (fun h => e i p * e h p * v h))).
    - rewrite rsum_swap. rewrite (rsum_ext m _ (fun h => if Nat.eqb h i then v h else 0)).
      + apply (rsum_single m i v). exact Hi.
      + intros h Hh. rewrite rsum_scal_r, E2, (Nat.eqb_sym i h) by assumption. destruct (Nat.eqb h i); ring.
    - intros p Hpm. rewrite (rsum_ext m (fun j => e j p * rsum m (fun q => e j q * (/ t q * rsum m (fun h => e h q * v h))))
        (fun j => rsum m (fun q => e j p * e j q * (/ t q * rsum m (fun h => e h q * v h))))) by (intros; rewrite <- rsum_scal_l; apply rsum_ext; intros; ring).
      rewrite rsum_swap. rewrite (rsum_ext m _ (fun q => if Nat.eqb q p then (fun q => / t q * rsum m (fun h => e h q * v h)) q else 0)).
      + rewrite rsum_single by exact Hpm. pose proof (Pt p Hpm).
        rewrite <- Rmult_assoc. rewrite (Rmult_assoc (e i p)). rewrite <- (Rmult_assoc (t p)), Rinv_r, Rmult_1_l by lra.
        rewrite <- rsum_scal_l. apply rsum_ext. intros; ring.
      + intros q Hq. rewrite rsum_scal_r, E1, (Nat.eqb_sym p q) by assumption. destruct (Nat.eqb q p); ring. }
  specialize (HS B v D). destruct (linsolve B v) as [d|]; [exists d; reflexivity|congruence].
Qed.
