(** Line searches: main results. *)
From Coq Require Import Reals List Arith Lia Lra Bool.
From Coquelicot Require Import Coquelicot.
From Verif Require Import Base ModelDCM ModelCReMa ModelLinsearch SpecDirected SpecWeighted SpecLinsearch ProofsLinsearch.
Import ListNotations.
Local Open Scope R_scope.

Lemma armijo_iff n L x dx f a :
  sufficient_decrease_condition n (fopp (L x)) (fopp (L (moved x a dx))) a f dx = true <-> armijo n L x dx f a.
Proof.
  unfold sufficient_decrease_condition, armijo. cbv zeta. unfold dot, scalar.
  destruct (L x) as [u| | |], (L (moved x a dx)) as [v| | |]; simpl;
    try (split; [discriminate|intros []]; fail); try (split; [exact (fun _ => I)|reflexivity]; fail).
  destruct (Rlt_dec _ _) as [H|H]; split; intros H0; try discriminate; try reflexivity; try lra.
Qed.

Lemma armijo_increase n L x dx f a u v :
  L x = Fin u -> L (moved x a dx) = Fin v -> 0 <= a -> scalar n f dx <= 0 -> armijo n L x dx f a -> u < v.
Proof.
  unfold armijo. intros -> -> Ha Hs H. assert (0 <= / 10000 * a) by lra.
  assert (0 <= / 10000 * a * - scalar n f dx) by (apply Rmult_le_pos; lra). lra.
Qed.

(** * Clamps as longest steps *)
Lemma clamp_ge_longest n x dx alfa : 0 < alfa -> positive_upto n x -> longest_step n x dx alfa (clamp_ge n x dx alfa).
Proof.
  intros Ha Hx. destruct (clamp_ge_spec n x dx alfa Ha (fun i Hi => Rlt_le _ _ (Hx i Hi))) as (A & B & C).
  unfold longest_step. assert (0 < clamp_ge n x dx alfa). { apply C. intros i Hi Z. specialize (Hx i Hi). lra. }
  split; [lra|]. split; [intros i Hi; apply B; [exact Hi|lra]|]. clear A B C H.
  unfold clamp_ge. induction n as [|n IH]; [left; apply loop_0|]. rewrite loop_S.
  assert (Hx' : positive_upto n x) by (intros i Hi; apply Hx; lia). specialize (IH Hx').
  set (r0 := loop n alfa _) in *. specialize (Hx n ltac:(lia)). unfold fdiv.
  assert (IH' : r0 = alfa \/ exists i, (i < S n)%nat /\ dx i < 0 /\ moved x r0 dx i = x i / 100).
  { destruct IH as [IH|(i & Hi & E)]; [left; exact IH|right; exists i; split; [lia|exact E]]. }
  destruct (Req_EM_T (dx n) 0) as [E|NE].
  - destruct (Req_EM_T ((/ 100 - 1) * x n) 0); [|destruct (Rlt_dec 0 ((/ 100 - 1) * x n))]; exact IH'.
  - destruct (Rle_dec 0 _) as [Hc|Hc]; [|exact IH'].
    unfold Rmin. destruct (Rle_dec r0 _) as [L|L]; [exact IH'|]. right. exists n. split; [lia|].
    assert (D : dx n < 0).
    { apply Rnot_le_lt. intros D. assert (0 < dx n) by lra. apply (Rle_not_lt _ _ Hc).
      replace ((/ 100 - 1) * x n / dx n) with (- ((1 - / 100) * x n * / dx n)) by (field; lra).
      apply Ropp_lt_gt_0_contravar. apply Rmult_lt_0_compat; [apply Rmult_lt_0_compat; lra|apply Rinv_0_lt_compat; lra]. }
    split; [exact D|]. unfold moved. field. lra.
Qed.
Lemma clamp_gt_longest n x dx alfa : 0 < alfa -> positive_upto n x -> longest_step n x dx alfa (clamp_gt n x dx alfa).
Proof.
  intros Ha Hx. destruct (clamp_gt_spec n x dx alfa Ha) as (A & B).
  unfold longest_step. split; [exact A|]. split; [intros i Hi; apply B; [exact Hi|apply Hx; exact Hi|lra]|]. clear A B.
  unfold clamp_gt. induction n as [|n IH]; [left; apply loop_0|]. rewrite loop_S.
  assert (Hx' : positive_upto n x) by (intros i Hi; apply Hx; lia). specialize (IH Hx').
  set (r0 := loop n alfa _) in *. specialize (Hx n ltac:(lia)). cbv zeta.
  assert (IH' : r0 = alfa \/ exists i, (i < S n)%nat /\ dx i < 0 /\ moved x r0 dx i = x i / 100).
  { destruct IH as [IH|(i & Hi & E)]; [left; exact IH|right; exists i; split; [lia|exact E]]. }
  destruct (Req_EM_T (dx n) 0) as [E|NE]; [exact IH'|].
  destruct (Rlt_dec 0 _) as [Hc|Hc]; [|exact IH'].
  unfold Rmin. destruct (Rle_dec r0 _) as [L|L]; [exact IH'|]. right. exists n. split; [lia|].
  assert (D : dx n < 0).
  { apply Rnot_le_lt. intros D. assert (0 < dx n) by lra. apply (Rlt_asym _ _ Hc).
    replace ((/ 100 - 1) * x n / dx n) with (- ((1 - / 100) * x n * / dx n)) by (field; lra).
    apply Ropp_lt_gt_0_contravar. apply Rmult_lt_0_compat; [apply Rmult_lt_0_compat; lra|apply Rinv_0_lt_compat; lra]. }
  split; [exact D|]. unfold moved. field. lra.
Qed.

Lemma longest_positive n x dx alfa r a : positive_upto n x -> longest_step n x dx alfa r -> 0 <= a <= r ->
  positive_upto n (moved x a dx).
Proof.
  intros Hx (H1 & H2 & _) Ha i Hi. specialize (H2 i Hi). specialize (Hx i Hi). unfold moved in *.
  destruct (Rle_dec 0 (dx i)).
  - assert (0 <= a * dx i) by (apply Rmult_le_pos; lra). lra.
  - assert (- dx i * a <= - dx i * r) by (apply Rmult_le_compat_l; lra). lra.
Qed.

(** * C39 *)
Lemma CM_admissible n step_fun x dx beta alfa f :
  0 < alfa -> 0 < beta <= 1 -> positive_upto n x ->
  0 < linsearch_fun_CM n step_fun x dx beta alfa f <= alfa /\
  positive_upto n (moved x (linsearch_fun_CM n step_fun x dx beta alfa f) dx).
Proof.
  intros Ha Hb Hx. unfold linsearch_fun_CM. pose proof (clamp_ge_longest n x dx alfa Ha Hx) as HL.
  destruct (decrease_loop_shape n step_fun x dx beta (clamp_ge n x dx alfa) f) as (m & _ & -> & _).
  pose proof HL as (Hr & _). pose proof (shrink _ beta m (proj1 Hr) Hb). split; [lra|].
  apply (longest_positive n x dx alfa _ _ Hx HL). lra.
Qed.
Lemma CM_fixed_admissible n x dx dx_old alfa beta step :
  0 < alfa -> 0 < beta <= 1 -> positive_upto n x ->
  0 < linsearch_fun_CM_fixed n x dx dx_old alfa beta step <= alfa /\
  positive_upto n (moved x (linsearch_fun_CM_fixed n x dx dx_old alfa beta step) dx).
Proof.
  intros Ha Hb Hx. unfold linsearch_fun_CM_fixed. pose proof (clamp_ge_longest n x dx alfa Ha Hx) as HL.
  destruct (norm_loop_shape n dx dx_old (clamp_ge n x dx alfa) beta step) as (m & _ & _ & -> & _).
  pose proof HL as (Hr & _). pose proof (shrink _ beta m (proj1 Hr) Hb). split; [lra|].
  apply (longest_positive n x dx alfa _ _ Hx HL). lra.
Qed.

(** A zero coordinate with a non-zero direction stops the search at step 0. *)
Lemma CM_zero_coordinate n step_fun x dx beta alfa f :
  0 < alfa -> 0 < beta <= 1 -> (forall i, (i < n)%nat -> 0 <= x i) ->
  let a := linsearch_fun_CM n step_fun x dx beta alfa f in
  0 <= a <= alfa /\ (forall i, (i < n)%nat -> 0 <= moved x a dx i) /\
  (0 < a <-> (forall i, (i < n)%nat -> x i = 0 -> dx i = 0)).
Proof.
  intros Ha Hb Hx. unfold linsearch_fun_CM. cbv zeta.
  destruct (clamp_ge_spec n x dx alfa Ha Hx) as (A & B & C).
  destruct (decrease_loop_shape n step_fun x dx beta (clamp_ge n x dx alfa) f) as (m & _ & -> & _).
  pose proof (shrink0 _ beta m (proj1 A) Hb) as S0. split; [lra|]. split.
  - intros i Hi. specialize (B i _ Hi S0). specialize (Hx i Hi). unfold moved. lra.
  - rewrite <- C. split; intros H; [|apply shrink; assumption]. lra.
Qed.

Lemma DCM_admissible n nzo nzi step_fun x dx beta alfa f :
  0 < alfa -> 0 < beta <= 1 -> index_list n nzo -> index_list n nzi -> dcm_dom n nzo nzi x ->
  0 < linsearch_fun_DCM (2 * n) step_fun x dx beta alfa f <= alfa /\
  dcm_dom n nzo nzi (moved x (linsearch_fun_DCM (2 * n) step_fun x dx beta alfa f) dx).
Proof.
  intros Ha Hb Io Ii [Do Di]. unfold linsearch_fun_DCM. destruct (clamp_gt_spec (2 * n) x dx alfa Ha) as (A & B).
  destruct (decrease_loop_shape (2 * n) step_fun x dx beta (clamp_gt (2 * n) x dx alfa) f) as (m & _ & -> & _).
  pose proof (shrink _ beta m (proj1 A) Hb). split; [lra|].
  split; intros i Hi; unfold moved; eapply Rlt_le_trans; [|apply B| |apply B]; try lra;
    try (apply Do; exact Hi); try (apply Di; exact Hi); try (specialize (Do i Hi); lra); try (specialize (Di i Hi); lra).
  - destruct Io as [_ Io]. specialize (Io i Hi). lia.
  - destruct Ii as [_ Ii]. specialize (Ii i Hi). lia.
Qed.
Lemma DCM_fixed_admissible n nzo nzi x dx dx_old alfa beta step :
  0 < alfa -> 0 < beta <= 1 -> index_list n nzo -> index_list n nzi -> dcm_dom n nzo nzi x ->
  0 < linsearch_fun_DCM_fixed (2 * n) x dx dx_old alfa beta step <= alfa /\
  dcm_dom n nzo nzi (moved x (linsearch_fun_DCM_fixed (2 * n) x dx dx_old alfa beta step) dx).
Proof.
  intros Ha Hb Io Ii [Do Di]. unfold linsearch_fun_DCM_fixed. destruct (clamp_gt_spec (2 * n) x dx alfa Ha) as (A & B).
  destruct (norm_loop_shape (2 * n) dx dx_old (clamp_gt (2 * n) x dx alfa) beta step) as (m & _ & _ & -> & _).
  pose proof (shrink _ beta m (proj1 A) Hb). split; [lra|].
  split; intros i Hi; unfold moved; eapply Rlt_le_trans; [|apply B| |apply B]; try lra;
    try (apply Do; exact Hi); try (apply Di; exact Hi); try (specialize (Do i Hi); lra); try (specialize (Di i Hi); lra).
  - destruct Io as [_ Io]. specialize (Io i Hi). lia.
  - destruct Ii as [_ Ii]. specialize (Ii i Hi). lia.
Qed.

(** Sums are linear along the step. *)
Lemma sum_between u v d e a b : 0 < u + v -> 0 < (u + b * d) + (v + b * e) -> 0 <= a <= b -> 0 < (u + a * d) + (v + a * e).
Proof.
  intros H1 H2 Ha. replace (u + a * d + (v + a * e)) with ((u + v) + a * (d + e)) by ring.
  replace (u + b * d + (v + b * e)) with ((u + v) + b * (d + e)) in H2 by ring.
  destruct (Rle_dec 0 (d + e)).
  - assert (0 <= a * (d + e)) by (apply Rmult_le_pos; lra). lra.
  - assert (- (d + e) * a <= - (d + e) * b) by (apply Rmult_le_compat_l; lra). lra.
Qed.

Lemma ten14 : 0 < / 10 ^ 14.
Proof. apply Rinv_0_lt_compat, pow_lt. lra. Qed.

Lemma ecm_exp_feasible_keeps n x dx b a : ecm_exp_dom n x -> ecm_exp_cond n x dx b = true -> 0 <= a <= b ->
  ecm_exp_dom n (moved x a dx).
Proof.
  intros HD Hc Ha i j Hi Hj Hne. assert (Hn : (2 <= n)%nat) by lia.
  pose proof (proj1 (ecm_exp_cond_pairs n x dx b Hn) Hc i j Hi Hj Hne) as H. pose proof ten14.
  unfold moved in *. apply (sum_between _ _ _ _ a b); [apply HD; assumption|lra|exact Ha].
Qed.
Lemma decm_exp_feasible_keeps n x dx b a : decm_exp_pairs n x -> decm_exp_cond n x dx b = true -> 0 <= a <= b ->
  decm_exp_pairs n (moved x a dx).
Proof.
  intros HD Hc Ha i j Hi Hj. assert (Hn : (0 < n)%nat) by lia.
  pose proof (proj1 (decm_exp_cond_pairs n x dx b Hn) Hc i j Hi Hj) as H.
  pose proof (proj2 (exp_gap_pos n x Hn) HD). unfold moved in *. apply (sum_between _ _ _ _ a b); [apply HD; assumption|lra|exact Ha].
Qed.

Lemma Some_inj (A : Type) (a b : A) : Some a = Some b -> a = b.
Proof. congruence. Qed.
Ltac fshape H b :=
  match type of H with (match ?q with Some _ => _ | None => _ end) = Some _ =>
    let E := fresh "E" in destruct q as [b|] eqn:E; [|discriminate]; apply Some_inj in H; rewrite <- H in *; clear H;
    let m := fresh "m" in let Hm := fresh "Hm" in let Er := fresh "Er" in let Hf := fresh "Hf" in let Hc := fresh "Hc" in
    destruct (feasible_spec _ _ _ _ _ E) as (m & Hm & Er & Hf & Hc) end.

Lemma ECM_exp_admissible fuel n step_fun x dx beta alfa f a :
  0 < alfa -> 0 < beta <= 1 -> ecm_exp_dom n x ->
  linsearch_fun_ECM_exp fuel n step_fun x dx beta alfa f = Some a ->
  0 < a <= alfa /\ ecm_exp_dom n (moved x a dx).
Proof.
  intros Ha Hb HD H. unfold linsearch_fun_ECM_exp in H. fshape H b.
  destruct (decrease_loop_shape (2 * n) step_fun x dx beta b f) as (k & _ & -> & _).
  pose proof (shrink alfa beta m Ha Hb) as S1. rewrite <- Er in S1. pose proof (shrink b beta k (proj1 S1) Hb).
  split; [lra|]. apply (ecm_exp_feasible_keeps n x dx b); [exact HD|exact Hc|lra].
Qed.
Lemma ECM_exp_fixed_admissible fuel n x dx dx_old alfa beta step a :
  0 < alfa -> 0 < beta <= 1 -> ecm_exp_dom n x ->
  linsearch_fun_ECM_exp_fixed fuel n x dx dx_old alfa beta step = Some a ->
  0 < a <= alfa /\ ecm_exp_dom n (moved x a dx).
Proof.
  intros Ha Hb HD H. unfold linsearch_fun_ECM_exp_fixed in H. fshape H b.
  destruct (norm_loop_shape (2 * n) dx dx_old b beta step) as (k & _ & _ & -> & _).
  pose proof (shrink alfa beta m Ha Hb) as S1. rewrite <- Er in S1. pose proof (shrink b beta k (proj1 S1) Hb).
  split; [lra|]. apply (ecm_exp_feasible_keeps n x dx b); [exact HD|exact Hc|lra].
Qed.
Lemma DECM_exp_admissible fuel n step_fun x dx beta alfa f a :
  0 < alfa -> 0 < beta <= 1 -> decm_exp_pairs n x ->
  linsearch_fun_DECM_exp fuel n step_fun x dx beta alfa f = Some a ->
  0 < a <= alfa /\ decm_exp_pairs n (moved x a dx).
Proof.
  intros Ha Hb HD H. unfold linsearch_fun_DECM_exp in H. fshape H b.
  destruct (decrease_loop_shape (4 * n) step_fun x dx beta b f) as (k & _ & -> & _).
  pose proof (shrink alfa beta m Ha Hb) as S1. rewrite <- Er in S1. pose proof (shrink b beta k (proj1 S1) Hb).
  split; [lra|]. apply (decm_exp_feasible_keeps n x dx b); [exact HD|exact Hc|lra].
Qed.
Lemma DECM_exp_fixed_admissible fuel n x dx dx_old alfa beta step a :
  0 < alfa -> 0 < beta <= 1 -> decm_exp_pairs n x ->
  linsearch_fun_DECM_exp_fixed fuel n x dx dx_old alfa beta step = Some a ->
  0 < a <= alfa /\ decm_exp_pairs n (moved x a dx).
Proof.
  intros Ha Hb HD H. unfold linsearch_fun_DECM_exp_fixed in H. fshape H b.
  destruct (norm_loop_shape (4 * n) dx dx_old b beta step) as (k & _ & _ & -> & _).
  pose proof (shrink alfa beta m Ha Hb) as S1. rewrite <- Er in S1. pose proof (shrink b beta k (proj1 S1) Hb).
  split; [lra|]. apply (decm_exp_feasible_keeps n x dx b); [exact HD|exact Hc|lra].
Qed.

(** UECM and DECM in the (x, y) variables: positivity always; for the DECM also the
    products below one, when the objective refuses positive points outside the domain and
    fifty halvings were enough. *)
Lemma ecm_dom_positive n x : ecm_dom n x -> positive_upto (2 * n) x.
Proof.
  intros [H _] i Hi. destruct (Nat.ltb_spec i n) as [L|L]; [apply H; exact L|].
  destruct (H (i - n)%nat ltac:(lia)) as [_ H2]. replace (i - n + n)%nat with i in H2 by lia. exact H2.
Qed.
Lemma ECM_positive fuel n step_fun x dx beta alfa f a :
  0 < alfa -> 0 < beta <= 1 -> positive_upto (2 * n) x -> linsearch_fun_ECM fuel n step_fun x dx beta alfa f = Some a ->
  0 < a <= alfa /\ positive_upto (2 * n) (moved x a dx).
Proof.
  intros Ha Hb Hx H. unfold linsearch_fun_ECM in H. fshape H b.
  pose proof (clamp_ge_longest (2 * n) x dx alfa Ha Hx) as HL. set (r := clamp_ge (2 * n) x dx alfa) in *.
  destruct (decrease_loop_shape (2 * n) step_fun x dx beta b f) as (k & Hk & -> & Hf2 & Hc2).
  pose proof HL as (Hr & _). pose proof (shrink r beta m (proj1 Hr) Hb) as S1. rewrite <- Er in S1.
  pose proof (shrink b beta k (proj1 S1) Hb). split; [lra|].
  apply (longest_positive (2 * n) x dx alfa r _ Hx HL); lra.
Qed.
Lemma DECM_admissible fuel n step_fun x dx beta alfa f a :
  0 < alfa -> 0 < beta <= 1 -> positive_upto (4 * n) x ->
  (forall z s, positive_upto (4 * n) z -> flt (fopp (step_fun z)) s = true -> decm_dom n z) ->
  linsearch_fun_DECM fuel n step_fun x dx beta alfa f = Some a ->
  0 < a <= alfa /\ positive_upto (4 * n) (moved x a dx) /\
  (decm_dom n (moved x a dx) \/
   exists b, a = b * beta ^ 50 /\ forall m, (m < 50)%nat -> ~ armijo (4 * n) step_fun x dx f (b * beta ^ m)).
Proof.
  intros Ha Hb Hx HO H. unfold linsearch_fun_DECM in H. fshape H b.
  pose proof (clamp_gt_longest (4 * n) x dx alfa Ha Hx) as HL. set (r := clamp_gt (4 * n) x dx alfa) in *.
  destruct (decrease_loop_shape (4 * n) step_fun x dx beta b f) as (k & Hk & -> & Hf2 & Hc2).
  pose proof HL as (Hr & _). pose proof (shrink r beta m (proj1 Hr) Hb) as S1. rewrite <- Er in S1.
  pose proof (shrink b beta k (proj1 S1) Hb). split; [lra|].
  assert (Hpos : positive_upto (4 * n) (moved x (b * beta ^ k) dx)) by (apply (longest_positive (4 * n) x dx alfa r _ Hx HL); lra).
  split; [exact Hpos|].
  destruct Hc2 as [->|Hc2].
  - right. exists b. split; [reflexivity|]. intros m' Hm' HA. apply armijo_iff in HA. rewrite Hf2 in HA by exact Hm'. discriminate.
  - left. unfold sufficient_decrease_condition in Hc2. apply (HO _ _ Hpos Hc2).
Qed.
Lemma DECM_positive fuel n step_fun x dx beta alfa f a :
  0 < alfa -> 0 < beta <= 1 -> positive_upto (4 * n) x -> linsearch_fun_DECM fuel n step_fun x dx beta alfa f = Some a ->
  0 < a <= alfa /\ positive_upto (4 * n) (moved x a dx).
Proof.
  intros Ha Hb Hx H. unfold linsearch_fun_DECM in H. fshape H b.
  pose proof (clamp_gt_longest (4 * n) x dx alfa Ha Hx) as HL. set (r := clamp_gt (4 * n) x dx alfa) in *.
  destruct (decrease_loop_shape (4 * n) step_fun x dx beta b f) as (k & _ & -> & _).
  pose proof HL as (Hr & _). pose proof (shrink r beta m (proj1 Hr) Hb) as S1. rewrite <- Er in S1.
  pose proof (shrink b beta k (proj1 S1) Hb). split; [lra|].
  apply (longest_positive (4 * n) x dx alfa r _ Hx HL); lra.
Qed.
Lemma ECM_fixed_positive fuel n x dx dx_old alfa beta step a :
  0 < alfa -> 0 < beta <= 1 -> positive_upto (2 * n) x -> linsearch_fun_ECM_fixed fuel n x dx dx_old alfa beta step = Some a ->
  0 < a <= alfa /\ positive_upto (2 * n) (moved x a dx).
Proof.
  intros Ha Hb Hx H. unfold linsearch_fun_ECM_fixed in H. fshape H b.
  pose proof (clamp_ge_longest (2 * n) x dx alfa Ha Hx) as HL. set (r := clamp_ge (2 * n) x dx alfa) in *.
  destruct (norm_loop_shape (2 * n) dx dx_old b beta step) as (k & _ & _ & -> & _).
  pose proof HL as (Hr & _). pose proof (shrink r beta m (proj1 Hr) Hb) as S1. rewrite <- Er in S1.
  pose proof (shrink b beta k (proj1 S1) Hb). split; [lra|].
  apply (longest_positive (2 * n) x dx alfa r _ Hx HL); lra.
Qed.
Lemma DECM_fixed_positive fuel n x dx dx_old alfa beta step a :
  0 < alfa -> 0 < beta <= 1 -> positive_upto (4 * n) x -> linsearch_fun_DECM_fixed fuel n x dx dx_old alfa beta step = Some a ->
  0 < a <= alfa /\ positive_upto (4 * n) (moved x a dx).
Proof.
  intros Ha Hb Hx H. unfold linsearch_fun_DECM_fixed in H. fshape H b.
  pose proof (clamp_gt_longest (4 * n) x dx alfa Ha Hx) as HL. set (r := clamp_gt (4 * n) x dx alfa) in *.
  destruct (norm_loop_shape (4 * n) dx dx_old b beta step) as (k & _ & _ & -> & _).
  pose proof HL as (Hr & _). pose proof (shrink r beta m (proj1 Hr) Hb) as S1. rewrite <- Er in S1.
  pose proof (shrink b beta k (proj1 S1) Hb). split; [lra|].
  apply (longest_positive (4 * n) x dx alfa r _ Hx HL); lra.
Qed.

(** The fixed-point searches: before the first halving of the norm loop the point is
    admissible (in particular at the first iteration). *)
Lemma ECM_fixed_first fuel n x dx dx_old alfa beta a :
  0 < alfa -> 0 < beta <= 1 -> ecm_dom n x ->
  linsearch_fun_ECM_fixed fuel n x dx dx_old alfa beta 0 = Some a ->
  0 < a <= alfa /\ ecm_dom n (moved x a dx).
Proof.
  intros Ha Hb HD H. unfold linsearch_fun_ECM_fixed in H. fshape H b. pose proof (ecm_dom_positive n x HD) as Hx.
  pose proof (clamp_ge_longest (2 * n) x dx alfa Ha Hx) as HL. set (r := clamp_ge (2 * n) x dx alfa) in *.
  pose proof HL as (Hr & _). pose proof (shrink r beta m (proj1 Hr) Hb) as S1. rewrite <- Er in S1. simpl.
  split; [lra|]. pose proof (longest_positive (2 * n) x dx alfa r b Hx HL ltac:(lra)) as HP.
  split; [intros i Hi; split; apply HP; lia|]. intros i j Hi Hj Hne.
  apply (proj1 (ecm_cond_pairs n x dx b ltac:(lia) (fun i Hi => Rlt_le _ _ (HP (i + n)%nat ltac:(lia))))); assumption.
Qed.
Lemma DECM_fixed_first fuel n x dx dx_old alfa beta a :
  0 < alfa -> 0 < beta <= 1 -> positive_upto (4 * n) x ->
  linsearch_fun_DECM_fixed fuel n x dx dx_old alfa beta 0 = Some a ->
  0 < a <= alfa /\ positive_upto (4 * n) (moved x a dx) /\ decm_pairs n (moved x a dx).
Proof.
  intros Ha Hb Hx H. unfold linsearch_fun_DECM_fixed in H. fshape H b.
  pose proof (clamp_gt_longest (4 * n) x dx alfa Ha Hx) as HL. set (r := clamp_gt (4 * n) x dx alfa) in *.
  pose proof HL as (Hr & _). pose proof (shrink r beta m (proj1 Hr) Hb) as S1. rewrite <- Er in S1. simpl.
  split; [lra|]. pose proof (longest_positive (4 * n) x dx alfa r b Hx HL ltac:(lra)) as HP. split; [exact HP|].
  intros i j Hi Hj. apply (proj1 (decm_cond_pairs n x dx b ltac:(lia)
    (fun i Hi => conj (Rlt_le _ _ (HP (i + 2 * n)%nat ltac:(lia))) (Rlt_le _ _ (HP (i + 3 * n)%nat ltac:(lia)))))); assumption.
Qed.

(** * C40: shape of the result *)
Lemma CM_shape n step_fun x dx beta alfa f : 0 < alfa -> positive_upto n x ->
  exists r m, longest_step n x dx alfa r /\ (m <= 50)%nat /\ linsearch_fun_CM n step_fun x dx beta alfa f = r * beta ^ m /\
    (forall m', (m' < m)%nat -> ~ armijo n step_fun x dx f (r * beta ^ m')) /\
    (m = 50%nat \/ armijo n step_fun x dx f (r * beta ^ m)).
Proof.
  intros Ha Hx. unfold linsearch_fun_CM. destruct (decrease_loop_shape n step_fun x dx beta (clamp_ge n x dx alfa) f) as (m & Hm & E & Hf & Hc).
  exists (clamp_ge n x dx alfa), m. split; [apply clamp_ge_longest; assumption|]. split; [exact Hm|]. split; [exact E|]. split.
  - intros m' Hm' HA. apply armijo_iff in HA. rewrite Hf in HA by exact Hm'. discriminate.
  - rewrite <- armijo_iff. exact Hc.
Qed.
Lemma DCM_shape n step_fun x dx beta alfa f : 0 < alfa -> positive_upto n x ->
  exists r m, longest_step n x dx alfa r /\ (m <= 50)%nat /\ linsearch_fun_DCM n step_fun x dx beta alfa f = r * beta ^ m /\
    (forall m', (m' < m)%nat -> ~ armijo n step_fun x dx f (r * beta ^ m')) /\
    (m = 50%nat \/ armijo n step_fun x dx f (r * beta ^ m)).
Proof.
  intros Ha Hx. unfold linsearch_fun_DCM. destruct (decrease_loop_shape n step_fun x dx beta (clamp_gt n x dx alfa) f) as (m & Hm & E & Hf & Hc).
  exists (clamp_gt n x dx alfa), m. split; [apply clamp_gt_longest; assumption|]. split; [exact Hm|]. split; [exact E|]. split.
  - intros m' Hm' HA. apply armijo_iff in HA. rewrite Hf in HA by exact Hm'. discriminate.
  - rewrite <- armijo_iff. exact Hc.
Qed.
Lemma plain_shape n step_fun x dx beta alfa f ls :
  ls = linsearch_fun_CM_exp \/ ls = linsearch_fun_crema_undirected \/ ls = linsearch_fun_DCM_exp \/ ls = linsearch_fun_crema_directed ->
  exists m, (m <= 50)%nat /\ ls n step_fun x dx beta alfa f = alfa * beta ^ m /\
    (forall m', (m' < m)%nat -> ~ armijo n step_fun x dx f (alfa * beta ^ m')) /\
    (m = 50%nat \/ armijo n step_fun x dx f (alfa * beta ^ m)).
Proof.
  intros Hl. replace (ls n step_fun x dx beta alfa f) with (decrease_loop n step_fun x dx beta alfa f)
    by (destruct Hl as [->|[->|[->| ->]]]; reflexivity).
  destruct (decrease_loop_shape n step_fun x dx beta alfa f) as (m & Hm & E & Hf & Hc).
  exists m. split; [exact Hm|]. split; [exact E|]. split.
  - intros m' Hm' HA. apply armijo_iff in HA. rewrite Hf in HA by exact Hm'. discriminate.
  - rewrite <- armijo_iff. exact Hc.
Qed.

(** The weighted models: [j] halvings for feasibility, [m] for decrease. *)
Lemma weighted_shape fuel cond N step_fun x dx beta r f a :
  (match feasible_loop cond beta fuel r with None => None | Some b => Some (decrease_loop N step_fun x dx beta b f) end) = Some a ->
  exists j m, a = r * beta ^ j * beta ^ m /\ (m <= 50)%nat /\ cond (r * beta ^ j) = true /\
    (forall j', (j' < j)%nat -> cond (r * beta ^ j') = false) /\
    (forall m', (m' < m)%nat -> ~ armijo N step_fun x dx f (r * beta ^ j * beta ^ m')) /\
    (m = 50%nat \/ armijo N step_fun x dx f a).
Proof.
  intros H. fshape H b. destruct (decrease_loop_shape N step_fun x dx beta b f) as (k & Hk & E2 & Hf2 & Hc2).
  exists m, k. rewrite E2. subst b. split; [reflexivity|]. split; [exact Hk|]. split; [exact Hc|]. split; [exact Hf|]. split.
  - intros m' Hm' HA. apply armijo_iff in HA. rewrite Hf2 in HA by exact Hm'. discriminate.
  - rewrite <- armijo_iff. exact Hc2.
Qed.
Lemma ECM_shape fuel n step_fun x dx beta alfa f a :
  (2 <= n)%nat -> 0 < alfa -> 0 < beta <= 1 -> ecm_dom n x -> linsearch_fun_ECM fuel n step_fun x dx beta alfa f = Some a ->
  exists r j m, longest_step (2 * n) x dx alfa r /\ a = r * beta ^ j * beta ^ m /\ (m <= 50)%nat /\
    ecm_dom n (moved x (r * beta ^ j) dx) /\
    (forall j', (j' < j)%nat -> ~ ecm_dom n (moved x (r * beta ^ j') dx)) /\
    (forall m', (m' < m)%nat -> ~ armijo (2 * n) step_fun x dx f (r * beta ^ j * beta ^ m')) /\
    (m = 50%nat \/ armijo (2 * n) step_fun x dx f a).
Proof.
  intros Hn Ha Hb HD H. unfold linsearch_fun_ECM in H. pose proof (ecm_dom_positive n x HD) as Hx.
  pose proof (clamp_ge_longest (2 * n) x dx alfa Ha Hx) as HL. set (r := clamp_ge (2 * n) x dx alfa) in *.
  destruct (weighted_shape fuel _ _ _ _ _ _ _ _ _ H) as (j & m & E & Hm & Hc & Hf & Hm' & Hd).
  exists r, j, m. split; [exact HL|]. split; [exact E|]. split; [exact Hm|].
  assert (HP : forall k, positive_upto (2 * n) (moved x (r * beta ^ k) dx)).
  { intros k. apply (longest_positive (2 * n) x dx alfa r _ Hx HL). pose proof (shrink r beta k ltac:(apply HL) Hb). lra. }
  assert (HI : forall k, ecm_cond n x dx (r * beta ^ k) = true <-> ecm_dom n (moved x (r * beta ^ k) dx)).
  { intros k. rewrite (ecm_cond_pairs n x dx _ Hn (fun i Hi => Rlt_le _ _ (HP k (i + n)%nat ltac:(lia)))). split.
    - intros G. split; [intros i Hi; split; apply HP; lia|exact G].
    - intros [_ G]. exact G. }
  split; [apply HI; exact Hc|]. split; [|split; [exact Hm'|exact Hd]].
  intros j' Hj' G. apply HI in G. rewrite Hf in G by exact Hj'. discriminate.
Qed.
Lemma DECM_shape fuel n step_fun x dx beta alfa f a :
  (0 < n)%nat -> 0 < alfa -> 0 < beta <= 1 -> positive_upto (4 * n) x -> linsearch_fun_DECM fuel n step_fun x dx beta alfa f = Some a ->
  exists r j m, longest_step (4 * n) x dx alfa r /\ a = r * beta ^ j * beta ^ m /\ (m <= 50)%nat /\
    decm_pairs n (moved x (r * beta ^ j) dx) /\
    (forall j', (j' < j)%nat -> ~ decm_pairs n (moved x (r * beta ^ j') dx)) /\
    (forall m', (m' < m)%nat -> ~ armijo (4 * n) step_fun x dx f (r * beta ^ j * beta ^ m')) /\
    (m = 50%nat \/ armijo (4 * n) step_fun x dx f a).
Proof.
  intros Hn Ha Hb Hx H. unfold linsearch_fun_DECM in H.
  pose proof (clamp_gt_longest (4 * n) x dx alfa Ha Hx) as HL. set (r := clamp_gt (4 * n) x dx alfa) in *.
  destruct (weighted_shape fuel _ _ _ _ _ _ _ _ _ H) as (j & m & E & Hm & Hc & Hf & Hm' & Hd).
  exists r, j, m. split; [exact HL|]. split; [exact E|]. split; [exact Hm|].
  assert (HP : forall k, positive_upto (4 * n) (moved x (r * beta ^ k) dx)).
  { intros k. apply (longest_positive (4 * n) x dx alfa r _ Hx HL). pose proof (shrink r beta k ltac:(apply HL) Hb). lra. }
  assert (HI : forall k, decm_cond n x dx (r * beta ^ k) = true <-> decm_pairs n (moved x (r * beta ^ k) dx)).
  { intros k. apply (decm_cond_pairs n x dx _ Hn). intros i Hi; split; apply Rlt_le, HP; lia. }
  split; [apply HI; exact Hc|]. split; [|split; [exact Hm'|exact Hd]].
  intros j' Hj' G. apply HI in G. rewrite Hf in G by exact Hj'. discriminate.
Qed.
Lemma ECM_exp_shape fuel n step_fun x dx beta alfa f a :
  (2 <= n)%nat -> linsearch_fun_ECM_exp fuel n step_fun x dx beta alfa f = Some a ->
  exists j m, a = alfa * beta ^ j * beta ^ m /\ (m <= 50)%nat /\
    ecm_exp_margin n (moved x (alfa * beta ^ j) dx) /\
    (forall j', (j' < j)%nat -> ~ ecm_exp_margin n (moved x (alfa * beta ^ j') dx)) /\
    (forall m', (m' < m)%nat -> ~ armijo (2 * n) step_fun x dx f (alfa * beta ^ j * beta ^ m')) /\
    (m = 50%nat \/ armijo (2 * n) step_fun x dx f a).
Proof.
  intros Hn H. unfold linsearch_fun_ECM_exp in H.
  destruct (weighted_shape fuel _ _ _ _ _ _ _ _ _ H) as (j & m & E & Hm & Hc & Hf & Hm' & Hd).
  exists j, m. split; [exact E|]. split; [exact Hm|]. split; [exact (proj1 (ecm_exp_cond_pairs n x dx _ Hn) Hc)|].
  split; [|split; [exact Hm'|exact Hd]]. intros j' Hj' G. pose proof (proj2 (ecm_exp_cond_pairs n x dx _ Hn) G) as G'. rewrite Hf in G' by exact Hj'. discriminate.
Qed.

Lemma decm_exp_keeps_iff n x dx a : (0 < n)%nat -> (decm_exp_cond n x dx a = true <-> decm_exp_keeps n x (moved x a dx)).
Proof.
  intros Hn. rewrite (decm_exp_cond_pairs n x dx a Hn). unfold decm_exp_keeps, exp_gap.
  destruct (vmin_spec n (fun i => x (i + 2 * n)%nat) Hn) as [A1 (p & Hpn & A2)].
  destruct (vmin_spec n (fun i => x (i + 3 * n)%nat) Hn) as [B1 (q & Hqn & B2)]. cbv beta in *. split.
  - intros H. exists p, q. rewrite <- A2, <- B2. repeat (split; [assumption|]). split; [|exact H].
    intros i j Hi Hj. apply Rplus_le_compat; [apply A1|apply B1]; assumption.
  - intros (p' & q' & Hp' & Hq' & H1 & H2) i j Hi Hj. specialize (H2 i j Hi Hj).
    specialize (H1 p q Hpn Hqn). specialize (A1 p' Hp'). specialize (B1 q' Hq'). lra.
Qed.
Lemma DECM_exp_shape fuel n step_fun x dx beta alfa f a :
  (0 < n)%nat -> linsearch_fun_DECM_exp fuel n step_fun x dx beta alfa f = Some a ->
  exists j m, a = alfa * beta ^ j * beta ^ m /\ (m <= 50)%nat /\
    decm_exp_keeps n x (moved x (alfa * beta ^ j) dx) /\
    (forall j', (j' < j)%nat -> ~ decm_exp_keeps n x (moved x (alfa * beta ^ j') dx)) /\
    (forall m', (m' < m)%nat -> ~ armijo (4 * n) step_fun x dx f (alfa * beta ^ j * beta ^ m')) /\
    (m = 50%nat \/ armijo (4 * n) step_fun x dx f a).
Proof.
  intros Hn H. unfold linsearch_fun_DECM_exp in H.
  destruct (weighted_shape fuel _ _ _ _ _ _ _ _ _ H) as (j & m & E & Hm & Hc & Hf & Hm' & Hd).
  exists j, m. split; [exact E|]. split; [exact Hm|]. split; [exact (proj1 (decm_exp_keeps_iff n x dx _ Hn) Hc)|].
  split; [|split; [exact Hm'|exact Hd]]. intros j' Hj' G. pose proof (proj2 (decm_exp_keeps_iff n x dx _ Hn) G) as G'. rewrite Hf in G' by exact Hj'. discriminate.
Qed.

(** The fixed-point searches. *)
Lemma fixed_shape n x dx dx_old alfa beta step :
  0 < alfa -> positive_upto n x ->
  exists r r' m m', longest_step n x dx alfa r /\ longest_step n x dx alfa r' /\
    (m <= 50)%nat /\ linsearch_fun_CM_fixed n x dx dx_old alfa beta step = r * beta ^ m /\
    (m' <= 50)%nat /\ linsearch_fun_DCM_fixed n x dx dx_old alfa beta step = r' * beta ^ m' /\
    (step = 0%nat -> m = 0%nat /\ m' = 0%nat) /\
    (step <> 0%nat -> m = 50%nat \/ sqrt (scalar n (fun i => r * beta ^ m * dx i) (fun i => r * beta ^ m * dx i)) < sqrt (scalar n dx_old dx_old)) /\
    (step <> 0%nat -> m' = 50%nat \/ sqrt (scalar n (fun i => r' * beta ^ m' * dx i) (fun i => r' * beta ^ m' * dx i)) < sqrt (scalar n dx_old dx_old)).
Proof.
  intros Ha Hx. unfold linsearch_fun_CM_fixed, linsearch_fun_DCM_fixed.
  destruct (norm_loop_shape n dx dx_old (clamp_ge n x dx alfa) beta step) as (m & A1 & A2 & A3 & A4 & _).
  destruct (norm_loop_shape n dx dx_old (clamp_gt n x dx alfa) beta step) as (m' & B1 & B2 & B3 & B4 & _).
  exists (clamp_ge n x dx alfa), (clamp_gt n x dx alfa), m, m'.
  split; [apply clamp_ge_longest; assumption|]. split; [apply clamp_gt_longest; assumption|]. auto 10.
Qed.
Lemma plain_fixed_shape n dx dx_old alfa beta step ls :
  ls = linsearch_fun_CM_exp_fixed \/ ls = linsearch_fun_crema_undirected_fixed \/ ls = linsearch_fun_DCM_exp_fixed \/ ls = linsearch_fun_crema_directed_fixed ->
  exists m, (m <= 50)%nat /\ ls n dx dx_old alfa beta step = alfa * beta ^ m /\ (step = 0%nat -> m = 0%nat) /\
    (step <> 0%nat -> m = 50%nat \/ sqrt (scalar n (fun i => alfa * beta ^ m * dx i) (fun i => alfa * beta ^ m * dx i)) < sqrt (scalar n dx_old dx_old)).
Proof.
  intros Hl. replace (ls n dx dx_old alfa beta step) with (norm_loop n dx dx_old alfa beta step)
    by (destruct Hl as [->|[->|[->| ->]]]; reflexivity).
  destruct (norm_loop_shape n dx dx_old alfa beta step) as (m & A1 & A2 & A3 & A4 & _). exists m. auto.
Qed.

(** * C40: termination *)
Lemma terminates_of cond beta r (T : R -> R) :
  0 <= r -> 0 < beta < 1 -> (exists d, 0 < d /\ forall a, 0 <= a < d -> a <= r -> cond a = true) ->
  exists K, forall fuel, (K <= fuel)%nat ->
    exists a, (match feasible_loop cond beta fuel r with None => None | Some b => Some (T b) end) = Some a.
Proof.
  intros Hr Hb (d & Hd & Hc). destruct (small_power r beta d Hr Hb Hd) as [m Hm]. exists (S m). intros fuel Hf.
  pose proof (shrink0 r beta m Hr ltac:(lra)) as Hs.
  destruct (feasible_some cond beta m fuel r) as [b E]; [apply Hc; [exact Hm|lra]|lia|]. rewrite E. eexists; reflexivity.
Qed.

Lemma ecm_small n x dx : ecm_dom n x -> exists d, 0 < d /\ forall a, 0 <= a < d -> forall i, (i < n)%nat ->
  forall j, (j < n)%nat -> i <> j -> moved x a dx (i + n)%nat * moved x a dx (j + n)%nat < 1.
Proof.
  intros [_ H]. apply (finite_delta n (fun i a => forall j, (j < n)%nat -> i <> j -> moved x a dx (i + n)%nat * moved x a dx (j + n)%nat < 1)).
  intros i Hi. destruct (finite_delta n (fun j a => i <> j -> moved x a dx (i + n)%nat * moved x a dx (j + n)%nat < 1)) as (d & Hd & G).
  - intros j Hj. destruct (Nat.eq_dec i j) as [->|Hne]; [exists 1; split; [lra|congruence]|].
    destruct (product_small (x (i + n)%nat) (dx (i + n)%nat) (x (j + n)%nat) (dx (j + n)%nat) (H i j Hi Hj Hne)) as (d & Hd & G).
    exists d. split; [exact Hd|]. intros a Ha _. apply G. exact Ha.
  - exists d. split; [exact Hd|]. intros a Ha j Hj Hne. apply (G a Ha j Hj Hne).
Qed.
Lemma ECM_feasible_small n x dx alfa beta (T : R -> R) :
  (2 <= n)%nat -> 0 < alfa -> 0 < beta < 1 -> ecm_dom n x ->
  exists K, forall fuel, (K <= fuel)%nat -> exists a,
    (match feasible_loop (ecm_cond n x dx) beta fuel (clamp_ge (2 * n) x dx alfa) with None => None | Some b => Some (T b) end) = Some a.
Proof.
  intros Hn Ha Hb HD. pose proof (ecm_dom_positive n x HD) as Hx.
  pose proof (clamp_ge_longest (2 * n) x dx alfa Ha Hx) as HL. set (r := clamp_ge (2 * n) x dx alfa) in *.
  destruct (ecm_small n x dx HD) as (d & Hd & G). apply terminates_of; [apply Rlt_le, HL|exact Hb|].
  exists d. split; [exact Hd|]. intros a Hda Har. pose proof (longest_positive (2 * n) x dx alfa r a Hx HL ltac:(lra)) as HP.
  apply (ecm_cond_pairs n x dx a Hn); [intros i Hi; apply Rlt_le, HP; lia|]. intros i j Hi Hj Hne. apply G; assumption.
Qed.
Lemma ECM_terminates n step_fun x dx beta alfa f :
  (2 <= n)%nat -> 0 < alfa -> 0 < beta < 1 -> ecm_dom n x ->
  exists K, forall fuel, (K <= fuel)%nat -> exists a, linsearch_fun_ECM fuel n step_fun x dx beta alfa f = Some a.
Proof. intros. apply ECM_feasible_small; assumption. Qed.
Lemma ECM_fixed_terminates n x dx dx_old alfa beta step :
  (2 <= n)%nat -> 0 < alfa -> 0 < beta < 1 -> ecm_dom n x ->
  exists K, forall fuel, (K <= fuel)%nat -> exists a, linsearch_fun_ECM_fixed fuel n x dx dx_old alfa beta step = Some a.
Proof. intros. apply (ECM_feasible_small n x dx alfa beta (fun b => norm_loop (2 * n) dx dx_old b beta step)); assumption. Qed.

Lemma ECM_exp_feasible_small n x dx alfa beta (T : R -> R) :
  (2 <= n)%nat -> 0 < alfa -> 0 < beta < 1 ->
  ecm_exp_margin n x ->
  exists K, forall fuel, (K <= fuel)%nat -> exists a,
    (match feasible_loop (ecm_exp_cond n x dx) beta fuel alfa with None => None | Some b => Some (T b) end) = Some a.
Proof.
  intros Hn Ha Hb HD. apply terminates_of; [lra|exact Hb|].
  destruct (finite_delta n (fun i a => forall j, (j < n)%nat -> i <> j -> / 10 ^ 14 < moved x a dx (i + n)%nat + moved x a dx (j + n)%nat)) as (d & Hd & G).
  - intros i Hi. destruct (finite_delta n (fun j a => i <> j -> / 10 ^ 14 < moved x a dx (i + n)%nat + moved x a dx (j + n)%nat)) as (d & Hd & G).
    + intros j Hj. destruct (Nat.eq_dec i j) as [->|Hne]; [exists 1; split; [lra|congruence]|].
      destruct (linear_small _ (dx (i + n)%nat + dx (j + n)%nat) _ (HD i j Hi Hj Hne)) as (d & Hd & G).
      exists d. split; [exact Hd|]. intros a Hda _. specialize (G a Hda). unfold moved. lra.
    + exists d. split; [exact Hd|]. intros a Hda j Hj Hne. apply (G a Hda j Hj Hne).
  - exists d. split; [exact Hd|]. intros a Hda _. apply ecm_exp_cond_pairs; [exact Hn|]. intros i j Hi Hj Hne. apply (G a Hda i Hi j Hj Hne).
Qed.
Lemma ECM_exp_terminates n step_fun x dx dx_old beta alfa f step :
  (2 <= n)%nat -> 0 < alfa -> 0 < beta < 1 ->
  ecm_exp_margin n x ->
  exists K, forall fuel, (K <= fuel)%nat ->
    (exists a, linsearch_fun_ECM_exp fuel n step_fun x dx beta alfa f = Some a) /\
    (exists a, linsearch_fun_ECM_exp_fixed fuel n x dx dx_old alfa beta step = Some a).
Proof.
  intros Hn Ha Hb HD.
  destruct (ECM_exp_feasible_small n x dx alfa beta (fun b => decrease_loop (2 * n) step_fun x dx beta b f) Hn Ha Hb HD) as (K1 & H1).
  destruct (ECM_exp_feasible_small n x dx alfa beta (fun b => norm_loop (2 * n) dx dx_old b beta step) Hn Ha Hb HD) as (K2 & H2).
  exists (Nat.max K1 K2). intros fuel Hf. split; [apply H1; lia|apply H2; lia].
Qed.

Lemma DECM_feasible_small n x dx alfa beta (T : R -> R) :
  (0 < n)%nat -> 0 < alfa -> 0 < beta < 1 -> positive_upto (4 * n) x -> decm_pairs n x ->
  exists K, forall fuel, (K <= fuel)%nat -> exists a,
    (match feasible_loop (decm_cond n x dx) beta fuel (clamp_gt (4 * n) x dx alfa) with None => None | Some b => Some (T b) end) = Some a.
Proof.
  intros Hn Ha Hb Hx HD.
  pose proof (clamp_gt_longest (4 * n) x dx alfa Ha Hx) as HL. set (r := clamp_gt (4 * n) x dx alfa) in *.
  apply terminates_of; [apply Rlt_le, HL|exact Hb|].
  destruct (finite_delta n (fun i a => forall j, (j < n)%nat -> moved x a dx (i + 2 * n)%nat * moved x a dx (j + 3 * n)%nat < 1)) as (d & Hd & G).
  - intros i Hi. apply (finite_delta n (fun j a => moved x a dx (i + 2 * n)%nat * moved x a dx (j + 3 * n)%nat < 1)).
    intros j Hj. exact (product_small _ (dx (i + 2 * n)%nat) _ (dx (j + 3 * n)%nat) (HD i j Hi Hj)).
  - exists d. split; [exact Hd|]. intros a Hda Har. pose proof (longest_positive (4 * n) x dx alfa r a Hx HL ltac:(lra)) as HP.
    apply (decm_cond_pairs n x dx a Hn); [intros i Hi; split; apply Rlt_le, HP; lia|]. intros i j Hi Hj. apply (G a Hda i Hi j Hj).
Qed.
Lemma DECM_terminates n step_fun x dx dx_old beta alfa f step :
  (0 < n)%nat -> 0 < alfa -> 0 < beta < 1 -> positive_upto (4 * n) x -> decm_pairs n x ->
  exists K, forall fuel, (K <= fuel)%nat ->
    (exists a, linsearch_fun_DECM fuel n step_fun x dx beta alfa f = Some a) /\
    (exists a, linsearch_fun_DECM_fixed fuel n x dx dx_old alfa beta step = Some a).
Proof.
  intros Hn Ha Hb Hx HD.
  destruct (DECM_feasible_small n x dx alfa beta (fun b => decrease_loop (4 * n) step_fun x dx beta b f) Hn Ha Hb Hx HD) as (K1 & H1).
  destruct (DECM_feasible_small n x dx alfa beta (fun b => norm_loop (4 * n) dx dx_old b beta step) Hn Ha Hb Hx HD) as (K2 & H2).
  exists (Nat.max K1 K2). intros fuel Hf. split; [apply H1; lia|apply H2; lia].
Qed.

Lemma DECM_exp_feasible_small n x dx alfa beta (T : R -> R) :
  (0 < n)%nat -> 0 < alfa -> 0 < beta < 1 -> decm_exp_pairs n x ->
  exists K, forall fuel, (K <= fuel)%nat -> exists a,
    (match feasible_loop (decm_exp_cond n x dx) beta fuel alfa with None => None | Some b => Some (T b) end) = Some a.
Proof.
  intros Hn Ha Hb HD. apply terminates_of; [lra|exact Hb|]. pose proof (proj2 (exp_gap_pos n x Hn) HD) as HG.
  assert (HB : forall i j, (i < n)%nat -> (j < n)%nat -> exp_gap n x / 100 < x (i + 2 * n)%nat + x (j + 3 * n)%nat).
  { intros i j Hi Hj. unfold exp_gap in *. pose proof (proj1 (vmin_spec n (fun i => x (i + 2 * n)%nat) Hn) i Hi).
    pose proof (proj1 (vmin_spec n (fun i => x (i + 3 * n)%nat) Hn) j Hj). cbv beta in *. lra. }
  destruct (finite_delta n (fun i a => forall j, (j < n)%nat -> exp_gap n x / 100 < moved x a dx (i + 2 * n)%nat + moved x a dx (j + 3 * n)%nat)) as (d & Hd & G).
  - intros i Hi. apply (finite_delta n (fun j a => exp_gap n x / 100 < moved x a dx (i + 2 * n)%nat + moved x a dx (j + 3 * n)%nat)).
    intros j Hj. destruct (linear_small _ (dx (i + 2 * n)%nat + dx (j + 3 * n)%nat) _ (HB i j Hi Hj)) as (d & Hd & G).
    exists d. split; [exact Hd|]. intros a Hda. specialize (G a Hda). unfold moved. lra.
  - exists d. split; [exact Hd|]. intros a Hda _. apply decm_exp_cond_pairs; [exact Hn|]. intros i j Hi Hj. apply (G a Hda i Hi j Hj).
Qed.
Lemma DECM_exp_terminates n step_fun x dx dx_old beta alfa f step :
  (0 < n)%nat -> 0 < alfa -> 0 < beta < 1 -> decm_exp_pairs n x ->
  exists K, forall fuel, (K <= fuel)%nat ->
    (exists a, linsearch_fun_DECM_exp fuel n step_fun x dx beta alfa f = Some a) /\
    (exists a, linsearch_fun_DECM_exp_fixed fuel n x dx dx_old alfa beta step = Some a).
Proof.
  intros Hn Ha Hb HD.
  destruct (DECM_exp_feasible_small n x dx alfa beta (fun b => decrease_loop (4 * n) step_fun x dx beta b f) Hn Ha Hb HD) as (K1 & H1).
  destruct (DECM_exp_feasible_small n x dx alfa beta (fun b => norm_loop (4 * n) dx dx_old b beta step) Hn Ha Hb HD) as (K2 & H2).
  exists (Nat.max K1 K2). intros fuel Hf. split; [apply H1; lia|apply H2; lia].
Qed.
