(** A generator by inversion of the distribution functions, and examples. *)
From Coq Require Import Reals List Arith Bool ZArith Permutation String Lia Lra.
From Coquelicot Require Import Coquelicot.
From Verif Require Import Base SpecGraph SpecWeighted ModelDCM ModelLinsearch ModelSampler SpecSampler ProofsSampler ProofsMainSampler ProofsSamplerLaw ProofsSamplerFiles.
Import ListNotations.
Local Open Scope R_scope.

Definition cl (u : R) : R := if Rle_dec 0 u then if Rlt_dec u 1 then u else 0 else 0.
Definition geo (p u : R) : nat := if Req_EM_T p 1 then 1%nat else Z.to_nat (up (ln (1 - u) / ln (1 - p))).
Definition inv_gen (start : R * R) : generator := {|
  gstate := R * R;
  seeded := fun _ => start;
  random_sample := fun s => (cl (fst s), (snd s, 0));
  randint := fun s => (0%Z, s);
  geometric := fun p s => if Rlt_dec 0 p then if Rle_dec p 1 then Some (geo p (cl (fst s)), (snd s, 0)) else None else None;
  exponential := fun q s => match q with Fin q => if Rle_dec 0 q then Some (Fin (- q * ln (1 - cl (fst s))), (snd s, 0)) else None | _ => None end
|}.
Lemma cl_range u : 0 <= cl u < 1.
Proof. unfold cl. destruct (Rle_dec 0 u); [destruct (Rlt_dec u 1)|]; lra. Qed.
Lemma cl_id u : 0 <= u < 1 -> cl u = u.
Proof. intros H. unfold cl. destruct (Rle_dec 0 u); [destruct (Rlt_dec u 1)|]; lra. Qed.
Lemma ln_neg a : 0 < a < 1 -> ln a < 0.
Proof. intros H. rewrite <- ln_1. apply ln_increasing; lra. Qed.
Lemma ln_nonpos a : 0 < a <= 1 -> ln a <= 0.
Proof. intros H. destruct (Req_dec a 1) as [->|]; [rewrite ln_1; lra|]. left. apply ln_neg. lra. Qed.
Lemma pow_ln a k : 0 < a -> a ^ k = exp (INR k * ln a).
Proof. intros H. rewrite <- Rpower_pow by exact H. unfold Rpower. reflexivity. Qed.
(** [geo p v = k] means [1-(1-p)^(k-1) <= v < 1-(1-p)^k]. *)
Lemma geo_pos p u : 0 < p <= 1 -> 0 <= u < 1 -> (1 <= geo p u)%nat.
Proof.
  intros HP HU. unfold geo. destruct (Req_EM_T p 1); [lia|]. pose proof (ln_neg (1 - p) ltac:(lra)) as H1. pose proof (ln_nonpos (1 - u) ltac:(lra)) as H2.
  set (r := ln (1 - u) / ln (1 - p)). assert (HR : 0 <= r).
  { unfold r. replace (ln (1 - u) / ln (1 - p)) with (- ln (1 - u) / - ln (1 - p)) by (field; lra). apply Rle_mult_inv_pos; lra. }
  destruct (archimed r) as [A _]. assert (HZ : (0 < up r)%Z) by (apply lt_IZR; lra). lia.
Qed.
Lemma geo_spec p u k : 0 < p < 1 -> 0 <= u < 1 -> (1 <= k)%nat -> Nat.eqb (geo p u) k = true <-> 1 - (1 - p) ^ (k - 1) <= u < 1 - (1 - p) ^ k.
Proof.
  intros HP HU HK. pose proof (geo_pos p u ltac:(lra) HU) as HG0. rewrite Nat.eqb_eq. unfold geo in *. destruct (Req_EM_T p 1); [lra|]. pose proof (ln_neg (1 - p) ltac:(lra)) as H1.
  set (r := ln (1 - u) / ln (1 - p)) in *. destruct (archimed r) as [A1 A2].
  assert (E : forall m, (1 - u <= (1 - p) ^ m <-> INR m <= r) /\ ((1 - p) ^ m < 1 - u <-> r < INR m)).
  { intros m. rewrite pow_ln by lra. rewrite <- (exp_ln (1 - u)) by lra.
    assert (ER : ln (1 - u) = r * ln (1 - p)) by (unfold r; field; lra). rewrite ER. split; split; intros H.
    - destruct (Rle_dec (INR m) r) as [|N]; [assumption|]. exfalso. assert (r * ln (1 - p) > INR m * ln (1 - p)) by nra. apply exp_increasing in H0. lra.
    - destruct H as [H|H]; [|rewrite H; lra]. left. apply exp_increasing. nra.
    - apply exp_lt_inv in H. nra.
    - apply exp_increasing. nra. }
  assert (EZ : Z.to_nat (up r) = k <-> INR (k - 1) <= r < INR k).
  { rewrite !INR_IZR_INZ. split.
    - intros <-. rewrite Nat2Z.inj_sub by lia. rewrite Z2Nat.id by lia. rewrite minus_IZR. change (IZR (Z.of_nat 1)) with 1. lra.
    - intros [B1 B2]. rewrite Nat2Z.inj_sub in B1 by lia. rewrite minus_IZR in B1. change (IZR (Z.of_nat 1)) with 1 in B1.
      assert (up r = Z.of_nat k); [|lia]. symmetry. apply tech_up; lra. }
  rewrite EZ. destruct (E (k - 1)%nat) as [E1 _]. destruct (E k) as [_ E2]. split; intros [B1 B2].
  - apply E1 in B1. apply E2 in B2. lra.
  - split; [apply E1; lra|apply E2; lra].
Qed.
Lemma geo_law p : 0 < p <= 1 -> geometric_law p (geo p).
Proof.
  intros HP k HK. destruct (Req_dec p 1) as [->|HN].
  - replace (1 - 1) with 0 by ring. destruct k as [|[|k]]; [lia| |].
    + replace (0 ^ (1 - 1) * 1) with 1 by (simpl; ring). eapply prob1_ext; [|exact (prob1_const true)]. intros u _. unfold geo. destruct (Req_EM_T 1 1); [reflexivity|lra].
    + replace (0 ^ (S (S k) - 1) * 1) with 0 by (simpl; ring). eapply prob1_ext; [|exact (prob1_const false)]. intros u _. unfold geo. destruct (Req_EM_T 1 1); [reflexivity|lra].
  - assert (HQ : (1 - p) ^ k = (1 - p) * (1 - p) ^ (k - 1)) by (replace k with (S (k - 1)) at 1 by lia; reflexivity).
    assert (H1 : (1 - p) ^ (k - 1) <= 1 ^ (k - 1)) by (apply pow_incr; lra). rewrite pow1 in H1. assert (H0 : 0 < (1 - p) ^ (k - 1)) by (apply pow_lt; lra). assert (H2 : 0 < (1 - p) ^ k) by (apply pow_lt; lra).
    replace ((1 - p) ^ (k - 1) * p) with ((1 - (1 - p) ^ k) - (1 - (1 - p) ^ (k - 1))) by (rewrite HQ; ring).
    apply prob1_between; [split; [lra|rewrite HQ; nra]|lra|]. intros u Hu. apply geo_spec; [lra|exact Hu|exact HK].
Qed.
Lemma expo_law q : 0 < q -> exponential_law q (fun v => - q * ln (1 - v)).
Proof.
  intros HQ t HT. pose proof (exp_pos (- t / q)) as H0. assert (H1 : exp (- t / q) <= 1).
  { rewrite <- exp_0. destruct HT as [HT|<-]; [left; apply exp_increasing; unfold Rdiv; pose proof (Rinv_0_lt_compat q HQ); nra|right; f_equal; field; lra]. }
  unfold prob1. pose proof (is_RInt_step (1 - exp (- t / q)) 0 1 ltac:(lra)) as HS.
  replace ((1 - exp (- t / q)) * 0 + (1 - (1 - exp (- t / q))) * 1) with (exp (- t / q)) in HS by ring.
  (* the two functions differ at one point *)
  assert (E : forall v, 0 <= v < 1 -> t < - q * ln (1 - v) <-> 1 - exp (- t / q) < v).
  { intros v Hv. split; intros H.
    - assert (ln (1 - v) < - t / q). { apply Rmult_lt_reg_l with q; [exact HQ|]. replace (q * (- t / q)) with (- t) by (field; lra). lra. }
      apply exp_increasing in H2. rewrite exp_ln in H2 by lra. lra.
    - assert (H2 : ln (1 - v) < - t / q). { rewrite <- (ln_exp (- t / q)). apply ln_increasing; lra. }
      apply (Rmult_lt_compat_l q) in H2; [|exact HQ]. replace (q * (- t / q)) with (- t) in H2 by (field; lra). lra. }
  set (a := 1 - exp (- t / q)) in *. assert (HA : 0 <= a < 1) by (unfold a; lra). replace (exp (- t / q)) with (0 + (1 - a) * 1) by (unfold a; ring).
  apply (is_RInt_Chasles (V:=R_NormedModule) _ 0 a 1 0 ((1 - a) * 1)).
  - apply (is_RInt_ext (fun _ => 0)).
    + intros v [V1 V2]. rewrite Rmin_left in V1 by lra. rewrite Rmax_right in V2 by lra. destruct (Rlt_dec t _) as [L|L]; [apply E in L; lra|reflexivity].
    + replace 0 with ((a - 0) * 0) at 2 by ring. apply is_RInt_constR.
  - apply (is_RInt_ext (fun _ => 1)).
    + intros v [V1 V2]. rewrite Rmin_left in V1 by lra. rewrite Rmax_right in V2 by lra. destruct (Rlt_dec t _) as [L|L]; [reflexivity|]. exfalso. apply L, E; lra.
    + apply is_RInt_constR.
Qed.
Lemma inv_gen_contract start : numpy_contract (inv_gen start).
Proof.
  unfold numpy_contract, inv_gen; cbn. repeat split.
  - apply cl_range.
  - apply cl_range.
  - lia.
  - intros p s HP. destruct (Rlt_dec 0 p); [|lra]. destruct (Rle_dec p 1); [|lra]. eexists. eexists. split; [reflexivity|]. apply geo_pos; [lra|apply cl_range].
  - intros p s HP. destruct (Rlt_dec 0 p); [|reflexivity]. destruct (Rle_dec p 1); [|reflexivity]. exfalso. apply HP. lra.
  - intros q s HQ. destruct (Rle_dec 0 q); [|lra]. eexists. eexists. split; [reflexivity|]. pose proof (cl_range (fst s)). pose proof (ln_nonpos (1 - cl (fst s)) ltac:(lra)). nra.
Qed.
Definition two_draws (start : R * R) (u v : R) : gstate (inv_gen start) := (u, v).
Lemma inv_gen_uniform start u : 0 <= u < 1 -> fst (random_sample (inv_gen start) (two_draws start u 0)) = u.
Proof. intros H. simpl. apply cl_id, H. Qed.
Lemma inv_gen_geometric start : uniform_then_geometric (inv_gen start) (two_draws start).
Proof.
  intros u Hu p HP. exists (geo p). split; [apply geo_law, HP|]. intros v Hv. exists ((v, 0) : gstate (inv_gen start)), ((0, 0) : gstate (inv_gen start)). split; [unfold two_draws; cbn; rewrite (cl_id u Hu); reflexivity|]. cbn. rewrite (cl_id v Hv).
  destruct (Rlt_dec 0 p); [|lra]. destruct (Rle_dec p 1); [|lra]. reflexivity.
Qed.
Lemma inv_gen_exponential start : uniform_then_exponential (inv_gen start) (two_draws start).
Proof.
  intros u Hu q HQ. exists (fun v => - q * ln (1 - v)). split; [apply expo_law, HQ|]. intros v Hv. exists ((v, 0) : gstate (inv_gen start)), ((0, 0) : gstate (inv_gen start)). split; [unfold two_draws; cbn; rewrite (cl_id u Hu); reflexivity|]. cbn. rewrite (cl_id v Hv).
  destruct (Rle_dec 0 q); [|lra]. reflexivity.
Qed.
Lemma inv_gen_exponential1 start : exponential_draws (inv_gen start) (fun v => two_draws start v 0).
Proof.
  intros q HQ. exists (fun v => - q * ln (1 - v)). split; [apply expo_law, HQ|]. intros v Hv. exists ((0, 0) : gstate (inv_gen start)). unfold two_draws. cbn. rewrite (cl_id v Hv).
  destruct (Rle_dec 0 q); [|lra]. reflexivity.
Qed.
(** Three tasks on two workers, in reverse order. *)
Definition reverse_choice (start : R * R) : pool_choice (inv_gen start) :=
  {| the_schedule := [(2, 1); (1, 0); (0, 1)]%nat; the_workers := fun _ => (1 / 3, 0) : gstate (inv_gen start) |}.
Lemma reverse_choice_valid start : valid_choice (inv_gen start) 2 3 (reverse_choice start).
Proof.
  split; [lia|]. split.
  - simpl. apply perm_trans with [1; 2; 0]%nat; [apply perm_swap|]. apply perm_trans with [1; 0; 2]%nat; [apply perm_skip, perm_swap|]. apply perm_swap.
  - intros t w. simpl. intros [E|[E|[E|[]]]]; injection E as <- <-; lia.
Qed.
Definition two_tasks (start : R * R) : pool_choice (inv_gen start) :=
  {| the_schedule := [(0, 0); (1, 0)]%nat; the_workers := fun _ => (1 / 3, 0) : gstate (inv_gen start) |}.
Lemma two_tasks_valid start : valid_choice (inv_gen start) 1 2 (two_tasks start).
Proof. split; [lia|]. split; [simpl; apply Permutation_refl|]. intros t w. simpl. intros [E|[E|[]]]; injection E as <- <-; lia. Qed.
Definition one_task (start : R * R) : pool_choice (inv_gen start) :=
  {| the_schedule := [(0, 0)]%nat; the_workers := fun _ => (1 / 3, 0) : gstate (inv_gen start) |}.
Lemma one_task_valid start : valid_choice (inv_gen start) 1 1 (one_task start).
Proof. split; [lia|]. split; [simpl; apply Permutation_refl|]. intros t w. simpl. intros [E|[]]; injection E as <- <-; lia. Qed.

(** C50, C52: the undirected sparse sampler writes both orders. *)
Lemma sparse_both_orders : exists (G : generator) (beta x : list R) cpu seed s c l s', numpy_contract G /\ valid_choice G cpu (List.length x * (List.length x - 1)) c /\
  (forall b, In b beta -> 0 < b) /\ (forall v, In v x -> 0 < v) /\ List.length beta = List.length x /\
  ensemble_sampler_crema_sparse_prob_graph G beta beta x x cpu seed s c = Some (l, s') /\ ~ und_pairs (List.length x) (map fst l) /\
  exists w w', In ((0, 1)%nat, w) l /\ In ((1, 0)%nat, w') l.
Proof.
  exists (inv_gen (0, 0)), [1; 1], [1; 1], 1%nat, (Some 0%Z), (0, 0), (two_tasks (0, 0)).
  assert (E : ensemble_sampler_crema_sparse_prob_graph (inv_gen (0, 0)) [1; 1] [1; 1] [1; 1] [1; 1] 1 (Some 0%Z) (0, 0) (two_tasks (0, 0)) =
    Some ([((0, 1)%nat, Fin (- (1 / 2) * ln (1 - 0))); ((1, 0)%nat, Fin (- (1 / 2) * ln (1 - 0)))], (0, 0))).
  { unfold ensemble_sampler_crema_sparse_prob_graph. cbn. unfold sample_graph. cbn.
    assert (E0 : cl 0 = 0) by (apply cl_id; lra).
    assert (EP : fdiv (1 * 1) (1 + 1 * 1) = Fin (1 / 2)) by (unfold fdiv; destruct (Req_EM_T _ 0); [lra|f_equal; field]).
    assert (EQ : fdiv 1 (1 + 1) = Fin (1 / 2)) by (unfold fdiv; destruct (Req_EM_T _ 0); [lra|f_equal; field]).
    unfold starmap. cbn. rewrite E0, EP, EQ. cbn. destruct (Rlt_dec 0 (1 / 2)); [|lra]. destruct (Rle_dec 0 (1 / 2)); [|lra]. cbn. reflexivity. }
  rewrite E. eexists. eexists. split; [apply inv_gen_contract|]. split; [apply two_tasks_valid|]. split; [intros b [<-|[<-|[]]]; lra|]. split; [intros b [<-|[<-|[]]]; lra|]. split; [reflexivity|]. split; [reflexivity|].
  split; [|eexists; eexists; split; [left; reflexivity|right; left; reflexivity]].
  intros [_ H]. specialize (H 1%nat 0%nat (or_intror (or_introl eq_refl))). lia.
Qed.
(** A complete solution of each kind; a graph sampled from it. *)
Definition solved_cm : solved := {| v_last_model := "cm_exp"; v_x := [1; 2; 3]; v_y := []; v_b_out := []; v_b_in := []; v_adjacency_given := false; v_adjacency_crema := OneArray [] |}.
Definition solved_crema : solved := {| v_last_model := "crema"; v_x := []; v_y := []; v_b_out := [1; 2; 3]; v_b_in := [1; 2; 3]; v_adjacency_given := true; v_adjacency_crema := Edges ([0; 0; 1]%nat, [1; 2; 2]%nat, [1; 1; 1]) |}.
Lemma solved_cm_complete : complete_solution false solved_cm 3.
Proof. left. split; [right; left; reflexivity|reflexivity]. Qed.
Lemma solved_crema_complete : complete_solution true solved_crema 3.
Proof. right. right. left. split; [left; reflexivity|]. exists [0; 0; 1]%nat, [1; 2; 2]%nat, [1; 1; 1]. repeat split. Qed.
Lemma inv_gen_positive k : 0 < first_draw (inv_gen (1 / 2, 1 / 2)) k.
Proof. unfold first_draw. simpl. rewrite cl_id; lra. Qed.
(** The statements applied to concrete data. *)
Lemma cm_case : exists l s', ensemble_sampler_cm_graph (inv_gen (0, 0)) [1; 2; 3] 2 (Some 5%Z) (0, 0) (reverse_choice (0, 0)) = Some (l, s') /\
  l = [(0, 1); (0, 2); (1, 2)]%nat.
Proof.
  destruct (cm_kept (inv_gen (0, 0)) [1; 2; 3] 2 (Some 5%Z) (0, 0) (reverse_choice (0, 0)) (0, 0)) as (s1 & E).
  - apply inv_gen_contract.
  - intros v [<-|[<-|[<-|[]]]]; lra.
  - apply reverse_choice_valid.
  - reflexivity.
  - eexists. exists s1. rewrite E. split; [reflexivity|]. unfold kept, lt_pairs, draws_from, first_draw. cbn. rewrite (cl_id 0) by lra. unfold p_ubcm. cbn.
    destruct (Rlt_dec 0 _) as [|N]; [|exfalso; apply N; apply Rdiv_lt_0_compat; lra].
    destruct (Rlt_dec 0 _) as [|N]; [|exfalso; apply N; apply Rdiv_lt_0_compat; lra].
    destruct (Rlt_dec 0 _) as [|N]; [|exfalso; apply N; apply Rdiv_lt_0_compat; lra]. reflexivity.
Qed.
Lemma det_case : numpy_contract (inv_gen (1 / 2, 1 / 2)) /\ positive_rates [1; 2; 3] [1; 2; 3] (combine [0; 0; 1] [1; 2; 2])%nat /\
  valid_choice (inv_gen (1 / 2, 1 / 2)) 2 (List.length [0; 0; 1]%nat) (reverse_choice (1 / 2, 1 / 2)).
Proof.
  split; [apply inv_gen_contract|]. split; [|apply reverse_choice_valid]. intros i j bi bj H E1 E2. simpl in H.
  assert (P : forall l q (b : R), (forall v, In v l -> 0 < v) -> nth_error l q = Some b -> 0 < b) by (intros l q b H1 H2; apply H1; eapply nth_error_In, H2).
  pose proof (P [1; 2; 3] i bi ltac:(intros v [<-|[<-|[<-|[]]]]; lra) E1). pose proof (P [1; 2; 3] j bj ltac:(intros v [<-|[<-|[<-|[]]]]; lra) E2). lra.
Qed.
Lemma law_cases : let G := inv_gen (0, 0) in
  numpy_contract G /\ uniform_then_geometric G (two_draws (0, 0)) /\ uniform_then_exponential G (two_draws (0, 0)) /\ exponential_draws G (fun v => two_draws (0, 0) v 0) /\
  (forall u, 0 <= u < 1 -> fst (random_sample G (two_draws (0, 0) u 0)) = u).
Proof.
  cbv zeta. split; [apply inv_gen_contract|]. split; [apply inv_gen_geometric|]. split; [apply inv_gen_exponential|]. split; [apply inv_gen_exponential1|]. apply inv_gen_uniform.
Qed.
(** One pair with [xi xj = 2] and [yi yj = 1/2]: weight 3 has probability 1/12. *)
Lemma ecm_case : prob2 (fun u v => has_weight 3 (is_a_link_ecm (inv_gen (0, 0)) (0%nat, 1, 1) (1%nat, 2, 1 / 2) None (two_draws (0, 0) u v))) (1 / 12).
Proof.
  replace (1 / 12) with (q_enh (1 * 2) (1 * (1 / 2)) 3) by (unfold q_enh; simpl; field).
  apply link_ecm_prob; [apply inv_gen_contract|apply inv_gen_geometric|lra|lra].
Qed.
(** Independent draws: two nodes linked with probability [2/3]. *)
Lemma pair_case : probn 1 (fun us => same_links (kept (p_ubcm (fun i => nth i [1; 2] 0)) (lt_pairs 2) us) [(0, 1)%nat]) (2 / 3).
Proof.
  assert (HP : forall i j, 0 <= p_ubcm (fun i => nth i [1; 2] 0) i j <= 1).
  { intros i j. unfold p_ubcm. apply link_prob. apply Rmult_le_pos; [destruct i as [|[|[|i]]]|destruct j as [|[|[|j]]]]; simpl; lra. }
  pose proof (lt_pairs_law (p_ubcm (fun i => nth i [1; 2] 0)) (fun _ _ => true) 2 HP) as H.
  replace (prob_undirected 2 (p_ubcm (fun i => nth i [1; 2] 0)) (fun _ _ => true)) with (2 / 3) in H; [exact H|].
  unfold prob_undirected, p_ubcm. simpl. field.
Qed.
Lemma und_pairs_ensemble n x a : (forall v, In v x -> 0 <= v) -> List.length x = n ->
  probn (n * (n - 1) / 2) (fun us => same_links (kept (p_ubcm (fun i => nth i x 0)) (lt_pairs n) us) (filter (fun e => a (fst e) (snd e)) (lt_pairs n)))
    (prob_undirected n (p_ubcm (fun i => nth i x 0)) a).
Proof.
  intros HX _. apply lt_pairs_law. intros i j. unfold p_ubcm. apply link_prob.
  assert (H : forall k, 0 <= nth k x 0) by (intros k; destruct (nth_in_or_default k x 0) as [H| ->]; [apply HX, H|lra]). apply Rmult_le_pos; apply H.
Qed.
Lemma dir_pairs_ensemble n x y a : (forall v, In v x -> 0 <= v) -> (forall v, In v y -> 0 <= v) -> List.length x = n -> List.length y = n ->
  probn (n * (n - 1)) (fun us => same_links (kept (p_dbcm (fun i => nth i x 0) (fun i => nth i y 0)) (neq_pairs n) us) (filter (fun e => a (fst e) (snd e)) (neq_pairs n)))
    (prob_directed n (p_dbcm (fun i => nth i x 0) (fun i => nth i y 0)) a).
Proof.
  intros HX HY _ _. apply neq_pairs_law. intros i j. unfold p_dbcm. apply link_prob.
  assert (H : forall k l, (forall v : R, In v l -> 0 <= v) -> 0 <= nth k l 0) by (intros k l Hl; destruct (nth_in_or_default k l 0) as [H| ->]; [apply Hl, H|lra]). apply Rmult_le_pos; apply H; assumption.
Qed.
Lemma sparse_twice_wrong : exists p : R, 0 < p < 1 /\ 1 - (1 - p) ^ 2 <> p /\
  prob2 (fun u v => is_link (is_a_link_crema_sparse (inv_gen (0, 0)) (0%nat, 1, 1) (1%nat, 1, 1) None (two_draws (0, 0) u 0)) ||
                    is_link (is_a_link_crema_sparse (inv_gen (0, 0)) (1%nat, 1, 1) (0%nat, 1, 1) None (two_draws (0, 0) v 0))) (1 - (1 - p) ^ 2) /\
  p = 1 * 1 / (1 + 1 * 1).
Proof.
  exists (1 * 1 / (1 + 1 * 1)). split; [lra|]. split; [lra|]. split; [|reflexivity].
  apply (sparse_twice (inv_gen (0, 0)) (fun u => two_draws (0, 0) u 0) 0 1 1 1 1 1).
  - apply inv_gen_uniform.
  - intros q s HQ. destruct (inv_gen_contract (0, 0)) as (_ & _ & _ & _ & H). destruct (H q s HQ) as (w & s' & E & _). exists w, s'. exact E.
  - lra.
  - lra.
  - lra.
Qed.
(** The files of an ensemble of two graphs. *)
Lemma files_case : exists fs, ensemble_sampler (inv_gen (0, 0)) false solved_cm 2 2 "sample/" (Some 7%Z) (0, 0) (fun _ => reverse_choice (0, 0)) = Some fs /\
  map fst fs = ["sample/0.txt"; "sample/1.txt"]%string.
Proof.
  destruct (sampler_cm_total (inv_gen (0, 0)) solved_cm 2 2 "sample/" (Some 7%Z) (0, 0) (fun _ => reverse_choice (0, 0)) (0, 0)) as (fs & E).
  - apply inv_gen_contract.
  - right. left. reflexivity.
  - intros v [<-|[<-|[<-|[]]]]; lra.
  - intros _. apply reverse_choice_valid.
  - reflexivity.
  - exists fs. split; [exact E|]. rewrite (sampler_names _ _ _ 3 _ _ _ _ _ _ _ solved_cm_complete E). reflexivity.
Qed.
(** The sparse model solved on an explicit matrix writes no file. *)
Lemma sparse_given_case : exists v : solved, v_last_model v = "crema-sparse"%string /\ v_adjacency_given v = true /\
  forall G directed n cpu out k entropy choice, (0 <= k < 4294967296)%Z -> ensemble_sampler G directed v n cpu out (Some k) entropy choice = Some [].
Proof.
  exists {| v_last_model := "crema-sparse"; v_x := []; v_y := []; v_b_out := [1; 1]; v_b_in := [1; 1]; v_adjacency_given := true; v_adjacency_crema := Edges ([0]%nat, [1]%nat, [1]) |}.
  split; [reflexivity|split; [reflexivity|]]. intros G directed n cpu out k entropy choice HK. apply (sparse_given_writes_nothing G directed _ n cpu out (Some k) entropy choice (seeded G k)); [reflexivity|reflexivity|].
  cbn [top_seed]. unfold np_seed. destruct (Z.leb_spec 0 k), (Z.ltb_spec k 4294967296); try lia. reflexivity.
Qed.
