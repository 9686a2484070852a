(** Line searches: failures on admissible points, and concrete cases. *)
From Coq Require Import Reals List Arith Lia Lra Bool.
From Verif Require Import Base ModelDCM ModelCReMa ModelLinsearch SpecDirected SpecWeighted SpecLinsearch ProofsLinsearch ProofsMainLinsearch.
Import ListNotations.
Local Open Scope R_scope.

Lemma halve_once cond beta k a : cond a = false -> cond (a * beta) = true -> halve cond beta (S (S k)) a = a * beta.
Proof. intros H1 H2. simpl. rewrite H1, H2. reflexivity. Qed.

(** * Halving after the feasibility test can leave the domain *)
Definition bad_ecm_x (r : nat) : R := nth r [1; 1; / 10; 9] 0.
Definition bad_ecm_dx (r : nat) : R := nth r [0; 0; 1; - (89 / 10)] 0.
Definition bad_ecm_old (r : nat) : R := nth r [0; 0; 0; 5] 0.

Ltac small i := repeat (destruct i as [|i]; [|try lia]).

Lemma bad_ecm_dom : ecm_dom 2 bad_ecm_x.
Proof.
  unfold bad_ecm_x. split.
  - intros i Hi. destruct i as [|[|i]]; [| |lia]; simpl; lra.
  - intros i j Hi Hj Hne. destruct i as [|[|i]], j as [|[|j]]; try lia; simpl; lra.
Qed.
Lemma bad_ecm_pos : positive_upto 4 bad_ecm_x.
Proof. intros i Hi. unfold bad_ecm_x. destruct i as [|[|[|[|i]]]]; try lia; simpl; lra. Qed.

Lemma bad_ecm_clamp : clamp_ge 4 bad_ecm_x bad_ecm_dx 1 = 1.
Proof.
  destruct (clamp_ge_longest 4 bad_ecm_x bad_ecm_dx 1 ltac:(lra) bad_ecm_pos) as (H1 & _ & [H|(i & Hi & Hd & H)]); [exact H|].
  set (r := clamp_ge 4 bad_ecm_x bad_ecm_dx 1) in *. clearbody r. unfold moved, bad_ecm_x, bad_ecm_dx in *. destruct i as [|[|[|[|i]]]]; try lia; simpl in Hd, H; lra.
Qed.

Lemma bad_ecm_result fuel : linsearch_fun_ECM_fixed (S fuel) 2 bad_ecm_x bad_ecm_dx bad_ecm_old 1 (/ 2) 1 = Some (/ 2).
Proof.
  unfold linsearch_fun_ECM_fixed. change (2 * 2)%nat with 4%nat. rewrite bad_ecm_clamp. cbn [feasible_loop].
  assert (C : ecm_cond 2 bad_ecm_x bad_ecm_dx 1 = true).
  { apply ecm_cond_pairs; [lia| |]; unfold moved, bad_ecm_x, bad_ecm_dx.
    - intros i Hi. destruct i as [|[|i]]; try lia; simpl; lra.
    - intros i j Hi Hj Hne. destruct i as [|[|i]], j as [|[|j]]; try lia; simpl; lra. }
  rewrite C. f_equal. unfold norm_loop. change 50%nat with (S (S 48)). rewrite halve_once.
  - lra.
  - destruct (Rlt_dec _ _) as [L|L]; [|reflexivity]. exfalso. unfold norm2 in L. apply sqrt_lt_0_alt in L.
    unfold dot, rsum, loop, bad_ecm_dx, bad_ecm_old in L. simpl in L. lra.
  - destruct (Rlt_dec _ _) as [L|L]; [reflexivity|]. exfalso. apply L. unfold norm2. apply sqrt_lt_1_alt.
    unfold dot, rsum, loop, bad_ecm_dx, bad_ecm_old. simpl. lra.
Qed.

Lemma ECM_fixed_refuted : exists n x dx dx_old, (2 <= n)%nat /\ ecm_dom n x /\
  forall fuel, exists a, linsearch_fun_ECM_fixed (S fuel) n x dx dx_old 1 (/ 2) 1 = Some a /\ ~ ecm_dom n (moved x a dx).
Proof.
  exists 2%nat, bad_ecm_x, bad_ecm_dx, bad_ecm_old. split; [lia|]. split; [exact bad_ecm_dom|]. intros fuel. exists (/ 2).
  split; [apply bad_ecm_result|]. intros [_ H]. specialize (H 0%nat 1%nat ltac:(lia) ltac:(lia) ltac:(lia)).
  unfold moved, bad_ecm_x, bad_ecm_dx in H. simpl in H. lra.
Qed.

Definition bad_decm_x (r : nat) : R := nth r [1; 1; 1; 1; / 10; / 10; / 10; 9] 0.
Definition bad_decm_dx (r : nat) : R := nth r [0; 0; 0; 0; 1; 0; 0; - (89 / 10)] 0.
Definition bad_decm_old (r : nat) : R := nth r [0; 0; 0; 0; 0; 0; 0; 5] 0.
Lemma bad_decm_pos : positive_upto 8 bad_decm_x.
Proof. intros i Hi. unfold bad_decm_x. do 8 (destruct i as [|i]; [simpl; lra|]). lia. Qed.
Lemma bad_decm_pairs : decm_pairs 2 bad_decm_x.
Proof. intros i j Hi Hj. unfold bad_decm_x. destruct i as [|[|i]], j as [|[|j]]; try lia; simpl; lra. Qed.
Lemma bad_decm_clamp : clamp_gt 8 bad_decm_x bad_decm_dx 1 = 1.
Proof.
  destruct (clamp_gt_longest 8 bad_decm_x bad_decm_dx 1 ltac:(lra) bad_decm_pos) as (H1 & _ & [H|(i & Hi & Hd & H)]); [exact H|].
  set (r := clamp_gt 8 bad_decm_x bad_decm_dx 1) in *. clearbody r. unfold moved, bad_decm_x, bad_decm_dx in *. do 8 (destruct i as [|i]; [simpl in Hd, H; lra|]). lia.
Qed.
Lemma bad_decm_result fuel : linsearch_fun_DECM_fixed (S fuel) 2 bad_decm_x bad_decm_dx bad_decm_old 1 (/ 2) 1 = Some (/ 2).
Proof.
  unfold linsearch_fun_DECM_fixed. change (4 * 2)%nat with 8%nat. rewrite bad_decm_clamp. cbn [feasible_loop].
  assert (C : decm_cond 2 bad_decm_x bad_decm_dx 1 = true).
  { apply decm_cond_pairs; [lia| |]; unfold moved, decm_pairs, bad_decm_x, bad_decm_dx.
    - intros i Hi. destruct i as [|[|i]]; try lia; simpl; lra.
    - intros i j Hi Hj. destruct i as [|[|i]], j as [|[|j]]; try lia; simpl; lra. }
  rewrite C. f_equal. unfold norm_loop. change 50%nat with (S (S 48)). rewrite halve_once.
  - lra.
  - destruct (Rlt_dec _ _) as [L|L]; [|reflexivity]. exfalso. unfold norm2 in L. apply sqrt_lt_0_alt in L.
    unfold dot, rsum, loop, bad_decm_dx, bad_decm_old in L. simpl in L. lra.
  - destruct (Rlt_dec _ _) as [L|L]; [reflexivity|]. exfalso. apply L. unfold norm2. apply sqrt_lt_1_alt.
    unfold dot, rsum, loop, bad_decm_dx, bad_decm_old. simpl. lra.
Qed.
Lemma DECM_fixed_refuted : exists n x dx dx_old, (2 <= n)%nat /\ positive_upto (4 * n) x /\ decm_pairs n x /\
  forall fuel, exists a, linsearch_fun_DECM_fixed (S fuel) n x dx dx_old 1 (/ 2) 1 = Some a /\ ~ decm_dom n (moved x a dx).
Proof.
  exists 2%nat, bad_decm_x, bad_decm_dx, bad_decm_old. split; [lia|]. split; [exact bad_decm_pos|]. split; [exact bad_decm_pairs|].
  intros fuel. exists (/ 2). split; [apply bad_decm_result|]. intros [_ H]. specialize (H 0%nat 1%nat ltac:(lia) ltac:(lia) ltac:(lia)).
  unfold moved, bad_decm_x, bad_decm_dx in H. simpl in H. lra.
Qed.

(** * Self pairs: admissible points the directed searches cannot handle *)
Lemma DECM_never n step_fun x dx dx_old beta alfa f step fuel :
  0 < alfa -> 0 < beta <= 1 -> (0 < n)%nat -> (forall r, (r < 4 * n)%nat -> 0 <= x r) ->
  (forall i, (i < n)%nat -> 0 <= dx (i + 2 * n)%nat /\ 0 <= dx (i + 3 * n)%nat) ->
  (exists i, (i < n)%nat /\ 1 <= x (i + 2 * n)%nat * x (i + 3 * n)%nat) ->
  linsearch_fun_DECM fuel n step_fun x dx beta alfa f = None /\
  linsearch_fun_DECM_fixed fuel n x dx dx_old alfa beta step = None.
Proof.
  intros Ha Hb Hn Hx Hd (i & Hi & H1). unfold linsearch_fun_DECM, linsearch_fun_DECM_fixed.
  rewrite feasible_never; [split; reflexivity|]. intros m.
  destruct (decm_cond n x dx (clamp_gt (4 * n) x dx alfa * beta ^ m)) eqn:E; [|reflexivity]. exfalso.
  destruct (clamp_gt_spec (4 * n) x dx alfa Ha) as (A & _). pose proof (shrink _ beta m (proj1 A) Hb) as S1.
  set (a := clamp_gt (4 * n) x dx alfa * beta ^ m) in *.
  assert (G : forall r, (r < n)%nat -> x (r + 2 * n)%nat <= moved x a dx (r + 2 * n)%nat /\ x (r + 3 * n)%nat <= moved x a dx (r + 3 * n)%nat).
  { intros r Hr. destruct (Hd r Hr). unfold moved. split; rewrite <- Rplus_0_r at 1; apply Rplus_le_compat_l, Rmult_le_pos; lra. }
  pose proof (proj1 (decm_cond_pairs n x dx a Hn (fun r Hr => conj (Rle_trans _ _ _ (Hx (r + 2 * n)%nat ltac:(lia)) (proj1 (G r Hr)))
    (Rle_trans _ _ _ (Hx (r + 3 * n)%nat ltac:(lia)) (proj2 (G r Hr))))) E i i Hi Hi) as H2.
  pose proof (Hx (i + 2 * n)%nat ltac:(lia)). pose proof (Hx (i + 3 * n)%nat ltac:(lia)). destruct (G i Hi).
  assert (x (i + 2 * n)%nat * x (i + 3 * n)%nat <= moved x a dx (i + 2 * n)%nat * moved x a dx (i + 3 * n)%nat) by (apply Rmult_le_compat; assumption).
  lra.
Qed.
Definition self_decm_x (r : nat) : R := nth r [1; 1; 1; 1; 2; / 10; 2; / 10] 0.
Lemma self_decm_dom : decm_dom 2 self_decm_x /\ positive_upto 8 self_decm_x.
Proof.
  unfold self_decm_x. split; [split|].
  - intros i Hi. change (4 * 2)%nat with 8%nat in Hi. do 8 (destruct i as [|i]; [simpl; lra|]). lia.
  - intros i j Hi Hj Hne. destruct i as [|[|i]], j as [|[|j]]; try lia; simpl; lra.
  - intros i Hi. do 8 (destruct i as [|i]; [simpl; lra|]). lia.
Qed.
Lemma DECM_termination_refuted : exists n x dx, decm_dom n x /\ positive_upto (4 * n) x /\
  forall fuel step_fun f dx_old step,
    linsearch_fun_DECM fuel n step_fun x dx (/ 2) 1 f = None /\ linsearch_fun_DECM_fixed fuel n x dx dx_old 1 (/ 2) step = None.
Proof.
  exists 2%nat, self_decm_x, (fun _ => 1). split; [apply self_decm_dom|]. split; [apply self_decm_dom|].
  intros. apply DECM_never; try lra; try lia.
  - intros r Hr. apply Rlt_le, self_decm_dom. exact Hr.
  - intros; lra.
  - exists 0%nat. split; [lia|]. unfold self_decm_x. simpl. lra.
Qed.

Lemma DECM_exp_never n step_fun x dx dx_old beta alfa f step fuel :
  0 < alfa -> 0 < beta <= 1 -> (0 < n)%nat ->
  (forall i, (i < n)%nat -> dx (i + 2 * n)%nat <= 0 /\ dx (i + 3 * n)%nat <= 0) ->
  (exists i, (i < n)%nat /\ x (i + 2 * n)%nat + x (i + 3 * n)%nat <= 0) ->
  linsearch_fun_DECM_exp fuel n step_fun x dx beta alfa f = None /\
  linsearch_fun_DECM_exp_fixed fuel n x dx dx_old alfa beta step = None.
Proof.
  intros Ha Hb Hn Hd (i & Hi & H1). unfold linsearch_fun_DECM_exp, linsearch_fun_DECM_exp_fixed.
  rewrite feasible_never; [split; reflexivity|]. intros m.
  destruct (decm_exp_cond n x dx (alfa * beta ^ m)) eqn:E; [|reflexivity]. exfalso.
  pose proof (shrink alfa beta m Ha Hb) as S1. set (a := alfa * beta ^ m) in *.
  destruct (proj1 (decm_exp_keeps_iff n x dx a Hn) E) as (p & q & Hp & Hq & H2 & H3).
  specialize (H2 i i Hi Hi). specialize (H3 p q Hp Hq). unfold moved in H3. destruct (Hd p Hp) as [D1 _]. destruct (Hd q Hq) as [_ D2].
  assert (a * - dx (p + 2 * n)%nat >= 0) by (apply Rle_ge, Rmult_le_pos; lra).
  assert (a * - dx (q + 3 * n)%nat >= 0) by (apply Rle_ge, Rmult_le_pos; lra). lra.
Qed.
Definition self_decm_theta (r : nat) : R := nth r [1; 1; 1; 1; - (1); 2; - (1); 2] 0.
Lemma self_decm_exp_dom : decm_exp_dom 2 self_decm_theta.
Proof. intros i j Hi Hj Hne. unfold self_decm_theta. destruct i as [|[|i]], j as [|[|j]]; try lia; simpl; lra. Qed.
Lemma DECM_exp_termination_refuted : exists n x dx, decm_exp_dom n x /\
  forall fuel step_fun f dx_old step,
    linsearch_fun_DECM_exp fuel n step_fun x dx (/ 2) 1 f = None /\ linsearch_fun_DECM_exp_fixed fuel n x dx dx_old 1 (/ 2) step = None.
Proof.
  exists 2%nat, self_decm_theta, (fun _ => - (1)). split; [exact self_decm_exp_dom|].
  intros. apply DECM_exp_never; try lra; try lia.
  - intros; lra.
  - exists 0%nat. split; [lia|]. unfold self_decm_theta. simpl. lra.
Qed.
Definition self_decm_dir (r : nat) : R := nth r [0; 0; 0; 0; 99 / 100; 0; 1; - (2)] 0.
Lemma DECM_exp_admissible_refuted : exists n x dx, decm_exp_dom n x /\
  forall fuel dx_old, exists a, linsearch_fun_DECM_exp_fixed (S fuel) n x dx dx_old 1 (/ 2) 0 = Some a /\ ~ decm_exp_dom n (moved x a dx).
Proof.
  exists 2%nat, self_decm_theta, self_decm_dir. split; [exact self_decm_exp_dom|]. intros fuel dx_old. exists 1. split.
  - unfold linsearch_fun_DECM_exp_fixed. cbn [feasible_loop].
    assert (C : decm_exp_cond 2 self_decm_theta self_decm_dir 1 = true).
    { apply decm_exp_keeps_iff; [lia|]. exists 0%nat, 0%nat. split; [lia|]. split; [lia|].
      unfold moved, self_decm_theta, self_decm_dir.
      split; intros i j Hi Hj; destruct i as [|[|i]], j as [|[|j]]; try lia; simpl; lra. }
    rewrite C. reflexivity.
  - intros H. specialize (H 0%nat 1%nat ltac:(lia) ltac:(lia) ltac:(lia)). unfold moved, self_decm_theta, self_decm_dir in H. simpl in H. lra.
Qed.

(** * The absolute margin of the exponential UECM search *)
Definition tight_theta (r : nat) : R := nth r [1; 1; 0; / 10 ^ 15] 0.
Lemma tight_theta_dom : ecm_exp_dom 2 tight_theta.
Proof.
  assert (0 < / 10 ^ 15) by (apply Rinv_0_lt_compat, pow_lt; lra).
  intros i j Hi Hj Hne. unfold tight_theta. destruct i as [|[|i]], j as [|[|j]]; try lia; cbn [nth Nat.add]; lra.
Qed.
Lemma ECM_exp_termination_refuted : exists n x dx, (2 <= n)%nat /\ ecm_exp_dom n x /\
  forall fuel step_fun f dx_old step,
    linsearch_fun_ECM_exp fuel n step_fun x dx (/ 2) 1 f = None /\ linsearch_fun_ECM_exp_fixed fuel n x dx dx_old 1 (/ 2) step = None.
Proof.
  exists 2%nat, tight_theta, (fun _ => - (1)). split; [lia|]. split; [exact tight_theta_dom|].
  intros. unfold linsearch_fun_ECM_exp, linsearch_fun_ECM_exp_fixed.
  rewrite feasible_never; [split; reflexivity|]. intros m.
  destruct (ecm_exp_cond 2 _ _ _) eqn:E; [|reflexivity]. exfalso.
  pose proof (proj1 (ecm_exp_cond_pairs 2 _ _ _ ltac:(lia)) E 0%nat 1%nat ltac:(lia) ltac:(lia) ltac:(lia)) as H.
  pose proof (shrink 1 (/ 2) m ltac:(lra) ltac:(lra)).
  unfold moved, tight_theta in H. cbn [nth Nat.add] in H.
  assert (/ 10 ^ 15 < / 10 ^ 14). { apply Rinv_lt_contravar; [apply Rmult_lt_0_compat; apply pow_lt; lra|]. apply Rlt_pow; [lra|lia]. }
  lra.
Qed.

(** A zero coordinate blocks the UBCM search. *)
Lemma CM_zero_step_refuted : exists n x dx, (forall i, (i < n)%nat -> 0 <= x i) /\
  forall step_fun f, linsearch_fun_CM n step_fun x dx (/ 2) 1 f = 0.
Proof.
  exists 1%nat, (fun _ => 0), (fun _ => 1). split; [intros; lra|]. intros step_fun f.
  destruct (CM_zero_coordinate 1 step_fun (fun _ => 0) (fun _ => 1) (/ 2) 1 f ltac:(lra) ltac:(lra) ltac:(intros; lra)) as (A & _ & C).
  destruct A as [[A|A] _]; [|symmetry; exact A]. exfalso. pose proof (proj1 C A 0%nat ltac:(lia) eq_refl). lra.
Qed.

(** Concrete cases for the positive theorems. *)
Lemma linsearch_cases : positive_upto 4 bad_ecm_x /\ ecm_dom 2 bad_ecm_x /\ positive_upto 8 bad_decm_x /\ decm_pairs 2 bad_decm_x /\
  dcm_dom 2 [0%nat; 1%nat] [0%nat; 1%nat] bad_ecm_x /\
  ecm_exp_dom 2 (fun _ => 1) /\ ecm_exp_margin 2 (fun _ => 1) /\ decm_exp_pairs 2 (fun _ => 1).
Proof.
  split; [exact bad_ecm_pos|]. split; [exact bad_ecm_dom|]. split; [exact bad_decm_pos|]. split; [exact bad_decm_pairs|].
  split; [|split; [intros i j Hi Hj Hne; lra|split; [|intros i j Hi Hj; lra]]].
  - split; intros i [<-|[<-|[]]]; unfold bad_ecm_x; simpl; lra.
  - intros i j Hi Hj Hne. assert (/ 10 ^ 14 < 1); [|lra]. rewrite <- Rinv_1. apply Rinv_lt_contravar; [|apply Rlt_pow_R1; [lra|lia]].
    rewrite Rmult_1_l. apply pow_lt. lra.
Qed.
