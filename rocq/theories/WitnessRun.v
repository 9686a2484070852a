(** Concrete cases for the runs of the solver. *)
From Coq Require Import Reals List Arith Bool String Lia Lra.
From Verif Require Import Base SpecDeriv SpecGraph SpecEnsemble SpecWeighted SpecDirected SpecCReMa SpecLinsearch SpecDispatch SpecRun
  ModelCM ModelECM ModelDCM ModelDECM ModelCReMa ModelIEEE ModelLinsearch ModelSolver ModelDispatch ModelRun.
From Verif Require Import ProofsLinsearch ProofsMainLinsearch WitnessLinsearch ProofsIEEE ProofsEntries.
Import ListNotations.
Local Open Scope R_scope.

(** * The UECM line search accepts a point outside the domain *)
(** Two nodes joined by one link of weight two. *)
Definition pair_k (i : nat) : R := 1.
Definition pair_s (i : nat) : R := 2.
Definition far_x (r : nat) : R := nth r [/ 4; / 4; / 4; 2] 0.
Definition far_dx (r : nat) : R := nth r [0; 0; 7 / 4; - (7 / 4)] 0.
Definition far_f (r : nat) : R := - loglikelihood_prime_ecm 2 pair_k pair_s far_x r.

Lemma flog_pos a : 0 < a -> flog a = Fin (ln a).
Proof. intros H. unfold flog. destruct (Rlt_dec 0 a) as [_|N]; [reflexivity|lra]. Qed.
Lemma fecm_pair z q : 0 < z 0%nat -> 0 < z 1%nat -> 0 < z 2%nat -> 0 < z 3%nat ->
  1 - z 3%nat * z 2%nat + z 1%nat * z 0%nat * (z 3%nat * z 2%nat) <> 0 ->
  q = (1 - z 3%nat * z 2%nat) / (1 - z 3%nat * z 2%nat + z 1%nat * z 0%nat * (z 3%nat * z 2%nat)) -> 0 < q ->
  floglikelihood_ecm 2 pair_k pair_s z =
  Fin (ln (z 0%nat) + ln (z 1%nat) + 2 * ln (z 2%nat) + 2 * ln (z 3%nat) + ln q).
Proof.
  intros H0 H1 H2 H3 Hd Eq Hq. unfold floglikelihood_ecm. rewrite !loop_S, !loop_0.
  change (0 + 2)%nat with 2%nat. change (1 + 2)%nat with 3%nat. unfold sdiv.
  destruct (Req_EM_T _ 0) as [Z|_]; [contradiction|]. rewrite <- Eq.
  rewrite !flog_pos by assumption. unfold pair_k, pair_s, fmul, fadd. f_equal. ring.
Qed.

Lemma far_dom : ecm_dom 2 far_x.
Proof.
  unfold far_x. split.
  - intros i Hi. destruct i as [|[|i]]; [| |lia]; simpl; lra.
  - intros i j Hi Hj Hne. destruct i as [|[|i]], j as [|[|j]]; try lia; simpl; lra.
Qed.
Lemma far_slope : dot 4 far_f far_dx = - (196 / 17).
Proof.
  unfold dot. cbn [rsum]. unfold far_f, loglikelihood_prime_ecm. cbn [Nat.ltb Nat.leb Nat.sub].
  rewrite !loop_S, !loop_0. cbn [Nat.eqb negb]. unfold pair_k, pair_s, far_dx, far_x. cbn [Nat.add nth]. field.
Qed.
Lemma far_clamp : clamp_ge 4 far_x far_dx 1 = 1.
Proof.
  assert (P : positive_upto 4 far_x) by (apply (ecm_dom_positive 2), far_dom).
  destruct (clamp_ge_longest 4 far_x far_dx 1 ltac:(lra) P) as (H1 & _ & [H|(i & Hi & Hd & H)]); [exact H|].
  set (r := clamp_ge 4 far_x far_dx 1) in *. clearbody r. unfold moved, far_x, far_dx in *. destruct i as [|[|[|[|i]]]]; try lia; simpl in Hd, H; lra.
Qed.
Lemma far_here : floglikelihood_ecm 2 pair_k pair_s far_x = Fin (ln (/ 4) + ln (/ 4) + 2 * ln (/ 4) + 2 * ln 2 + ln (16 / 17)).
Proof. apply (fecm_pair far_x (16 / 17)); unfold far_x; cbn [nth]; try lra. Qed.
Lemma far_one : floglikelihood_ecm 2 pair_k pair_s (axpy far_x 1 far_dx) = Fin (ln (/ 4) + ln (/ 4) + 2 * ln (/ 4) + 2 * ln 2 + ln (16 / 17)).
Proof.
  rewrite (fecm_pair (axpy far_x 1 far_dx) (16 / 17)); unfold axpy, far_x, far_dx; cbn [nth]; try lra; [|field; lra].
  replace (/ 4 + 1 * 0) with (/ 4) by lra. replace (/ 4 + 1 * (7 / 4)) with 2 by lra. replace (2 + 1 * - (7 / 4)) with (/ 4) by lra. f_equal. ring.
Qed.
Lemma far_half : floglikelihood_ecm 2 pair_k pair_s (axpy far_x (/ 2) far_dx) =
  Fin (ln (/ 4) + ln (/ 4) + 2 * ln (9 / 8) + 2 * ln (9 / 8) + ln (272 / 191)).
Proof.
  rewrite (fecm_pair (axpy far_x (/ 2) far_dx) (272 / 191)); unfold axpy, far_x, far_dx; cbn [nth]; try lra; [|field; lra].
  replace (/ 4 + / 2 * 0) with (/ 4) by lra. replace (/ 4 + / 2 * (7 / 4)) with (9 / 8) by lra. replace (2 + / 2 * - (7 / 4)) with (9 / 8) by lra. reflexivity.
Qed.
Lemma far_result fuel : linsearch_fun_ECM (S fuel) 2 (floglikelihood_ecm 2 pair_k pair_s) far_x far_dx (/ 2) 1 far_f = Some (/ 2).
Proof.
  unfold linsearch_fun_ECM. change (2 * 2)%nat with 4%nat. rewrite far_clamp. cbn [feasible_loop].
  assert (C : ecm_cond 2 far_x far_dx 1 = true).
  { apply ecm_cond_pairs; [lia| |]; unfold moved, far_x, far_dx.
    - intros i Hi. destruct i as [|[|i]]; try lia; simpl; lra.
    - intros i j Hi Hj Hne. destruct i as [|[|i]], j as [|[|j]]; try lia; simpl; lra. }
  rewrite C. f_equal. unfold decrease_loop. change 50%nat with (S (S 48)). rewrite halve_once.
  - lra.
  - unfold sufficient_decrease_condition. rewrite far_here, far_one, far_slope. unfold fopp, fadd, flt.
    destruct (Rlt_dec _ _) as [L|L]; [exfalso|reflexivity]. lra.
  - unfold sufficient_decrease_condition. rewrite Rmult_1_l, far_here, far_half, far_slope. unfold fopp, fadd, flt.
    destruct (Rlt_dec _ _) as [L|L]; [reflexivity|]. exfalso. apply L. clear L.
    assert (E1 : ln (/ 4) = - (2 * ln 2)).
    { rewrite ln_Rinv by lra. replace 4 with (2 * 2) by lra. rewrite ln_mult by lra. lra. }
    assert (E2 : 0 < ln (9 / 8)) by (rewrite <- ln_1; apply ln_increasing; lra).
    assert (E3 : ln (16 / 17) < ln (272 / 191)) by (apply ln_increasing; lra).
    assert (E4 : / 2 < ln 2) by exact ln_lt_2.
    lra.
Qed.
Lemma ECM_admissible_refuted : exists n k s x dx, (2 <= n)%nat /\ ecm_dom n x /\
  SpecLinsearch.scalar (2 * n) (fun r => - loglikelihood_prime_ecm n k s x r) dx < 0 /\
  forall fuel, exists a, linsearch_fun_ECM (S fuel) n (floglikelihood_ecm n k s) x dx (/ 2) 1 (fun r => - loglikelihood_prime_ecm n k s x r) = Some a /\
    / 2 <= a /\ ~ ecm_dom n (moved x a dx).
Proof.
  exists 2%nat, pair_k, pair_s, far_x, far_dx. split; [lia|]. split; [exact far_dom|]. split.
  - pose proof far_slope as E. unfold dot in E. change (rsum 4 (fun i => far_f i * far_dx i) < 0). rewrite E. lra.
  - intros fuel. exists (/ 2). split; [exact (far_result fuel)|]. split; [lra|]. intros [_ H]. specialize (H 0%nat 1%nat ltac:(lia) ltac:(lia) ltac:(lia)).
    unfold moved, far_x, far_dx in H. simpl in H. lra.
Qed.

(** * A run: the cycle of four nodes, one class of four equal nodes, from [x = 1] *)
(** One-dimensional [solve] and [eigh]. *)
Definition solve1 (B : nat -> nat -> R) (v : nat -> R) : option (nat -> R) :=
  if Req_EM_T (B 0%nat 0%nat) 0 then None else Some (fun _ => v 0%nat / B 0%nat 0%nat).
Definition eigh1 (b : nat -> nat -> R) : (nat -> R) * (nat -> nat -> R) := (fun _ => b 0%nat 0%nat, fun _ _ => 1).
Lemma solve1_solves : linear_solver 1 solve1.
Proof.
  intros B v d H i Hi. replace i with 0%nat by lia. unfold solve1 in H. destruct (Req_EM_T _ 0) as [Z|Z]; [discriminate|].
  injection H as <-. unfold apply_mat. cbn [rsum]. field. exact Z.
Qed.
Lemma eigh1_decomposes : eigen_solver 1 eigh1.
Proof.
  intros b Hb. unfold eigh1. cbn [fst snd]. split; [|split]; intros p q Hp Hq; replace p with 0%nat by lia; replace q with 0%nat by lia; cbn [rsum Nat.eqb]; ring.
Qed.

Definition run_opt (me : method) : options R :=
  {| o_tol := / 10; o_eps := 0; o_max_steps := 100; o_method := me; o_verbose := false; o_regularise := true;
     o_regularise_eps := / 1000; o_full_return := true; o_linsearch := true |}.
Definition ring_k (i : nat) : R := 2.
Definition ring_c (i : nat) : R := 4.
Definition ring_x (i : nat) : R := 1.
Definition ring_args : arguments := A2 1 ring_k ring_c.

Lemma run_one_search {V M S} (N : numerics V M S) P O x0 f0 dx a x1 f1 :
  o_full_return O = true -> o_linsearch O = true -> o_method O = Newton \/ o_method O = QuasiNewton -> o_verbose O = false -> o_max_steps O = 100%nat ->
  p_fun P x0 = Some f0 -> gtb N (vnorm N f0) (o_tol O) = true -> gtb N (sone N) (o_eps O) = true ->
  (forall s, s_x s = x0 -> s_f s = f0 -> solver_dx N P O s = Some dx) ->
  p_lin_nq P x0 dx (shalf N) (sone N) f0 = Some a ->
  x1 = vaxpy N x0 a dx -> p_fun P x1 = Some f1 ->
  gtb N (vnorm N f1) (o_tol O) = false ->
  solver N P O x0 = Full x1 1 [vnorm N f0; vnorm N f1] [sone N; vnorm N (vnan_fix N (vsub N x1 x0))] [a].
Proof.
  intros HF HL HME HV HM E0 G1 G2 HD Ha -> E1 G3.
  unfold solver. rewrite HM. unfold solver_init. rewrite E0. simpl. unfold solver_continue at 1. simpl. rewrite G1, G2, HM. simpl.
  unfold solver_step. rewrite HD by reflexivity. simpl. unfold solver_alfa. rewrite HL. simpl. rewrite Ha, HF.
  destruct HME as [-> | ->]; simpl; rewrite E1; simpl; rewrite HV, ?HF; simpl; unfold solver_continue at 1; simpl; rewrite HM, G3; simpl; rewrite ?HF; reflexivity.
Qed.

Ltac ringvalues := unfold loglikelihood_cm, loglikelihood_hessian_diag_cm, loglikelihood_prime_cm, loglikelihood_hessian_cm, hessian_cm_aux, loop, ring_k, ring_c, ring_x; simpl.

Lemma ring_search dx : dx 0%nat = 2 / 5 -> forall f, f 0%nat = -2 ->
  linsearch_fun_CM 1 (floglikelihood_cm 1 ring_k ring_c) ring_x dx (/ 2) 1 f = 1.
Proof.
  intros Hdx f Hf. assert (P : positive_upto 1 ring_x) by (intros i _; unfold ring_x; lra).
  assert (C : clamp_ge 1 ring_x dx 1 = 1).
  { destruct (clamp_ge_longest 1 ring_x dx 1 ltac:(lra) P) as (_ & _ & [H|(i & Hi & Hd & H)]); [exact H|]. replace i with 0%nat in Hd by lia. lra. }
  unfold linsearch_fun_CM. rewrite C. unfold decrease_loop. change 50%nat with (S 49). cbn [halve].
  rewrite (fcm_fin 1 ring_k ring_c ring_x) by exact P.
  rewrite (fcm_fin 1 ring_k ring_c (axpy ring_x 1 dx)) by (intros i Hi; replace i with 0%nat by lia; unfold axpy, ring_x; rewrite Hdx; lra).
  assert (A : sufficient_decrease_condition 1 (fopp (Fin (loglikelihood_cm 1 ring_k ring_c ring_x)))
      (fopp (Fin (loglikelihood_cm 1 ring_k ring_c (axpy ring_x 1 dx)))) 1 f dx = true).
  { unfold sufficient_decrease_condition, fopp, fadd, flt, dot. cbn [rsum]. rewrite Hdx, Hf.
    destruct (Rlt_dec _ _) as [L|L]; [reflexivity|]. exfalso. apply L. clear L. ringvalues. unfold axpy. rewrite Hdx. unfold ring_x.
    rewrite !Rmult_1_r, ln_1. replace (1 + (1 + 1 * (2 / 5)) * (1 + 1 * (2 / 5))) with (2 * (37 / 25)) by lra. rewrite (ln_mult 2 (37 / 25)) by lra.
    replace (1 + 1) with 2 by lra. replace (1 + 1 * (2 / 5)) with (7 / 5) by lra.
    assert (E1 : 8 * ln (7 / 5) = ln ((7 / 5) ^ 8)) by (rewrite ln_pow by lra; simpl; ring).
    assert (E2 : 6 * ln (37 / 25) = ln ((37 / 25) ^ 6)) by (rewrite ln_pow by lra; simpl; ring).
    assert (E3 : ln ((37 / 25) ^ 6) + ln (11 / 10) < ln ((7 / 5) ^ 8)).
    { rewrite <- ln_mult by lra. apply ln_increasing; lra. }
    assert (E4 : 1 - / (11 / 10) <= ln (11 / 10)).
    { assert (H := exp_ineq1_le (ln (/ (11 / 10)))). rewrite exp_ln in H by lra. rewrite ln_Rinv in H by lra. lra. }
    lra. }
  rewrite A. reflexivity.
Qed.

Lemma norm1 f : vnorm (run_numerics solve1 (fun _ => true) 1) f = Rabs (f 0%nat).
Proof. rewrite <- sqrt_Rsqr_abs. unfold run_numerics, norm2, dot. cbn [vnorm rsum]. f_equal. unfold Rsqr. ring. Qed.

Lemma ring_gradient f : 0 < f 0%nat -> real_vec 1 (run_entry (Neg "loglikelihood_prime_cm") ring_args f) =
  Some (fun i => - loglikelihood_prime_cm 1 ring_k ring_c f i).
Proof.
  intros H. unfold ring_args. rewrite (neg_entry _ _ _ _ (e_ll_prime_cm 1 ring_k ring_c f
    (cm_divisors_ok 1 f ltac:(intros i Hi; replace i with 0%nat by lia; exact H)))). reflexivity.
Qed.
Lemma ring_positive : forall i, (i < 1)%nat -> 0 < ring_x i.
Proof. intros i _. unfold ring_x. lra. Qed.
Lemma ring_curvature : real_mat 1 (run_entry (Neg "loglikelihood_hessian_cm") ring_args ring_x) =
  Some (fun i j => - loglikelihood_hessian_cm 1 ring_k ring_c ring_x i j).
Proof. unfold ring_args. rewrite (neg_entry _ _ _ _ (e_ll_hess_cm 1 ring_k ring_c ring_x (cm_divisors_ok 1 ring_x ring_positive))). reflexivity. Qed.
Lemma ring_diagonal : real_vec 1 (run_entry (Neg "loglikelihood_hessian_diag_cm") ring_args ring_x) =
  Some (fun i => - loglikelihood_hessian_diag_cm 1 ring_k ring_c ring_x i).
Proof. unfold ring_args. rewrite (neg_entry _ _ _ _ (e_ll_hess_diag_cm 1 ring_k ring_c ring_x (cm_divisors_ok 1 ring_x ring_positive))). reflexivity. Qed.
Lemma gradient_one : - loglikelihood_prime_cm 1 ring_k ring_c ring_x 0 = -2.
Proof. ringvalues. field. Qed.
Lemma gradient_end x : x 0%nat = 7 / 5 -> Rabs (- loglikelihood_prime_cm 1 ring_k ring_c x 0) <= / 10.
Proof. intros E. ringvalues. rewrite E. unfold Rabs. destruct (Rcase_abs _); lra. Qed.
Lemma curvature_one : - loglikelihood_hessian_cm 1 ring_k ring_c ring_x 0 0 = 5.
Proof. ringvalues. field. Qed.
Lemma diagonal_one : - loglikelihood_hessian_diag_cm 1 ring_k ring_c ring_x 0 = 5.
Proof. ringvalues. field. Qed.
Lemma maxabs_one f : vmaxabs (run_numerics solve1 (fun _ => true) 1) f = Rmax (Rabs (f 0%nat)) 0.
Proof. reflexivity. Qed.

Local Notation ring_N := (run_numerics solve1 (fun _ => true) 1).
Lemma ring_one (P : problem (nat -> R) (nat -> nat -> R) R) me dx : me = Newton \/ me = QuasiNewton ->
  (forall z, 0 < z 0%nat -> p_fun P z = Some (fun i => - loglikelihood_prime_cm 1 ring_k ring_c z i)) ->
  (forall x dx b a f, p_lin_nq P x dx b a f = Some (linsearch_fun_CM 1 (floglikelihood_cm 1 ring_k ring_c) x dx b a f)) ->
  dx 0%nat = 2 / 5 ->
  (forall s, s_x s = ring_x -> s_f s = (fun i => - loglikelihood_prime_cm 1 ring_k ring_c ring_x i) -> solver_dx ring_N P (run_opt me) s = Some dx) ->
  exists x ns ds, solver ring_N P (run_opt me) ring_x = Full x 1 ns ds [1] /\ x 0%nat = 7 / 5.
Proof.
  intros HM HF HL Hdx HD.
  assert (Ex : vaxpy ring_N ring_x 1 dx 0%nat = 7 / 5) by (cbn; unfold axpy, ring_x; rewrite Hdx; lra).
  exists (vaxpy ring_N ring_x 1 dx). eexists _, _. split; [|exact Ex].
  eapply (run_one_search ring_N P (run_opt me) ring_x (fun i => - loglikelihood_prime_cm 1 ring_k ring_c ring_x i) dx 1); try reflexivity; auto.
  - apply HF. unfold ring_x. lra.
  - rewrite norm1, gradient_one. cbn. destruct (Rlt_dec _ _) as [L|L]; [reflexivity|]. exfalso. apply L. unfold Rabs. destruct (Rcase_abs _); lra.
  - cbn. destruct (Rlt_dec _ _) as [L|L]; [reflexivity|lra].
  - rewrite HL. f_equal. apply ring_search; [exact Hdx|exact gradient_one].
  - apply HF. rewrite Ex. lra.
  - rewrite norm1. cbn [gtb run_numerics o_tol run_opt]. destruct (Rlt_dec _ _) as [L|L]; [|reflexivity]. exfalso. pose proof (gradient_end _ Ex). lra.
Qed.

Lemma ring_run meth : In meth descent_methods -> documented (run_opt (method_of_string meth)) meth /\
  accepted u_dispatch "cm" meth None (fun D => exists x ns ds,
    solver (run_numerics solve1 (fun _ => true) 1) (run_problem eigh1 0 1 D ring_args) (run_opt (method_of_string meth)) ring_x = Full x 1 ns ds [1] /\ x 0%nat = 7 / 5).
Proof.
  assert (A2 : Rabs (-2) = 2) by (unfold Rabs; destruct (Rcase_abs _); lra).
  intros Hm. split.
  { unfold documented, run_opt. cbn. repeat split; lra. }
  cbn in Hm. destruct Hm as [<-|[<-|[]]]; eexists; (split; [reflexivity|]).
  - set (B := matrix_regulariser_function_eigen_based eigh1 1 (fun i j => - loglikelihood_hessian_cm 1 ring_k ring_c ring_x i j)
      (vmaxabs ring_N (fun i => - loglikelihood_prime_cm 1 ring_k ring_c ring_x i) * / 1000)).
    assert (EB : B 0%nat 0%nat = 5).
    { unfold B, matrix_regulariser_function_eigen_based, matmul, transpose, diag, symmetrise, eigh1. rewrite maxabs_one, gradient_one. cbn [fst snd rsum Nat.eqb].
      rewrite curvature_one, A2. unfold Rmax. destruct (Rle_dec 2 0); [lra|]. destruct (Rlt_dec _ _) as [L|L]; lra. }
    refine (ring_one _ Newton (fun _ => - - loglikelihood_prime_cm 1 ring_k ring_c ring_x 0 / B 0%nat 0%nat) (or_introl eq_refl) _ _ _ _).
    + intros z Hz. exact (ring_gradient z Hz).
    + intros x dx b a f. reflexivity.
    + rewrite gradient_one, EB. lra.
    + intros s Hx Hf. unfold solver_dx. cbn [o_method run_opt]. rewrite Hx, Hf.
      match goal with |- sbind ?jj _ = _ => replace jj with (Some (fun i j => - loglikelihood_hessian_cm 1 ring_k ring_c ring_x i j)) by exact (eq_sym ring_curvature) end.
      cbn [sbind o_verbose o_regularise run_opt andb].
      match goal with |- context [sbind ?jj _] => replace jj with (Some (fun i => - loglikelihood_prime_cm 1 ring_k ring_c ring_x i)) by exact (eq_sym (ring_gradient ring_x (ring_positive 0 ltac:(lia)))) end.
      change (sbind (Some B) (fun B => solve1 B (fun i => - - loglikelihood_prime_cm 1 ring_k ring_c ring_x i)) = 
        Some (fun _ => - - loglikelihood_prime_cm 1 ring_k ring_c ring_x 0 / B 0%nat 0%nat)).
      unfold sbind, solve1. destruct (Req_EM_T _ 0) as [Z|_]; [rewrite EB in Z; lra|reflexivity].
  - refine (ring_one _ QuasiNewton (fun i => - - loglikelihood_prime_cm 1 ring_k ring_c ring_x i /
      Rmax (- loglikelihood_hessian_diag_cm 1 ring_k ring_c ring_x i) (- loglikelihood_hessian_diag_cm 1 ring_k ring_c ring_x i * 0 +
        vmaxabs ring_N (fun i => - loglikelihood_prime_cm 1 ring_k ring_c ring_x i) * / 1000)) (or_intror eq_refl) _ _ _ _).
    + intros z Hz. exact (ring_gradient z Hz).
    + intros x dx b a f. reflexivity.
    + rewrite maxabs_one, gradient_one, diagonal_one, A2. unfold Rmax. destruct (Rle_dec 2 0); [lra|]. destruct (Rle_dec _ _) as [L|L]; lra.
    + intros s Hx Hf. unfold solver_dx. cbn [o_method run_opt]. rewrite Hx, Hf.
      match goal with |- sbind ?jj _ = _ => replace jj with (Some (fun i => - loglikelihood_hessian_diag_cm 1 ring_k ring_c ring_x i)) by exact (eq_sym ring_diagonal) end.
      cbn [sbind o_verbose o_regularise run_opt andb].
      match goal with |- context [sbind ?jj _] => replace jj with (Some (fun i => - loglikelihood_prime_cm 1 ring_k ring_c ring_x i)) by exact (eq_sym (ring_gradient ring_x (ring_positive 0 ltac:(lia)))) end.
      cbn [sbind vdiv ring_N run_numerics]. 
      rewrite (proj2 (every_true 1 _)); [reflexivity|]. intros i Hi. replace i with 0%nat by lia. apply nonzero_pos. cbn [vfloor run_numerics]. apply Rlt_le_trans with (2 := Rmax_l _ _). rewrite diagonal_one. lra.
Qed.

(** * Cases for the curvature theorems *)
Definition link : topology := [((0, 1)%nat, 2)].
Lemma psd_cases : index_list 2 [0%nat; 1%nat] /\ (forall i, (i < 2)%nat -> 1 <= ring_c i) /\
  ecm_exp_dom 2 (fun _ => 1) /\ decm_exp_dom 2 (fun _ => 1) /\ decm_exp_pairs 2 (fun _ => 1) /\
  pairs_below 2 link /\ crema_dom link (fun _ => 1) /\ crema_dir_dom 2 link (fun _ => 1) /\ simple_pairs link /\ simple_arcs link /\ nonneg_weights link /\
  (exists H, loglikelihood_hessian_crema_undirected link (fun _ => 1) = Some H) /\
  (exists H, loglikelihood_hessian_crema_directed 2 link (fun _ => 1) = Some H).
Proof.
  assert (IN : forall i j w, In (i, j, w) link -> i = 0%nat /\ j = 1%nat /\ w = 2).
  { intros i j w [E|[]]. inversion E. auto. }
  split; [split; [repeat constructor; cbn; intuition lia|intros i [<-|[<-|[]]]; lia]|].
  split; [intros i _; unfold ring_c; lra|].
  split; [intros i j Hi Hj Hne; lra|]. split; [intros i j Hi Hj Hne; lra|]. split; [intros i j Hi Hj; lra|].
  split; [intros i j w H; destruct (IN i j w H) as (-> & -> & ->); lia|].
  split; [intros i j w H; lra|]. split; [intros i j w H; lra|].
  assert (SP : simple_pairs link) by (split; [intros i j w H; destruct (IN i j w H) as (-> & -> & ->); lia|repeat constructor; intros []]).
  split; [exact SP|]. split; [repeat constructor; intros []|].
  split; [intros i j w H; destruct (IN i j w H) as (-> & -> & ->); lra|].
  unfold loglikelihood_hessian_crema_undirected, loglikelihood_hessian_crema_directed, eloop, link. cbn [fold_left fst snd obind].
  unfold sdiv. destruct (Req_EM_T _ 0) as [Z|_]; [exfalso; simpl in Z; lra|]. cbn [obind]. split; eexists; reflexivity.
Qed.
