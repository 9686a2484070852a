(** Convergence of the fixed-point runs of the binary models. *)
From Coq Require Import Reals List Arith Bool String Lia Lra Psatz.
From Verif Require ProofsIEEE ProofsEntries.
From Verif Require Import Base SpecGraph SpecDispatch SpecExist SpecConverge ModelCM ModelDCM ModelLinsearch ModelSolver ModelDispatch ModelRun
  ProofsLinsearch ProofsCM ProofsTool ProofsConverge ProofsConvergeSys ProofsResidual ProofsTraj.
Import ListNotations.
Local Open Scope R_scope.

(** * Damped steps *)
Lemma damped_arith al a u f : al <= a <= 1 -> 0 < al -> 0 < u -> 0 < f -> damped al u f ((1 - a) * u + a * f).
Proof.
  intros Ha Hal Pu Pf. assert (P : 0 < (1 - a) * u + a * f) by nra. split; [assumption|].
  exists a. split; [assumption|]. split; [lra|].
  assert (E : 0 <= (1 - a) * / u + a * / f - / ((1 - a) * u + a * f)); [|lra].
  replace ((1 - a) * / u + a * / f - / ((1 - a) * u + a * f))
    with (a * (1 - a) * ((u - f) * (u - f)) / (u * f * ((1 - a) * u + a * f))) by (field; lra).
  apply Rmult_le_pos; [|left; apply Rinv_0_lt_compat; apply Rmult_lt_0_compat; [nra|assumption]].
  apply Rmult_le_pos; [nra|apply Rle_0_sqr].
Qed.
Lemma exp_above x : 1 + x <= exp x.
Proof. destruct (Req_dec x 0) as [->|N]; [rewrite exp_0; lra|]. left. apply exp_ineq1. assumption. Qed.
Lemma exp_convex a p q : 0 <= a <= 1 -> exp ((1 - a) * p + a * q) <= (1 - a) * exp p + a * exp q.
Proof.
  intros Ha. set (m := (1 - a) * p + a * q).
  assert (T : forall z, exp m * (1 + (z - m)) <= exp z).
  { intros z. replace (exp z) with (exp m * exp (z - m)) by (rewrite <- exp_plus; f_equal; ring).
    apply Rmult_le_compat_l; [left; apply exp_pos|apply exp_above]. }
  assert (T1 := T p). assert (T2 := T q).
  assert ((1 - a) * (exp m * (1 + (p - m))) <= (1 - a) * exp p) by (apply Rmult_le_compat_l; lra).
  assert (a * (exp m * (1 + (q - m))) <= a * exp q) by (apply Rmult_le_compat_l; lra).
  replace (exp m) with ((1 - a) * (exp m * (1 + (p - m))) + a * (exp m * (1 + (q - m)))); [lra|].
  unfold m. ring.
Qed.
Lemma damped_geom al a p q : al <= a <= 1 -> 0 < al -> damped al (exp (- p)) (exp (- q)) (exp (- ((1 - a) * p + a * q))).
Proof.
  intros Ha Hal. split; [apply exp_pos|]. exists a. split; [assumption|]. split.
  - replace (- ((1 - a) * p + a * q)) with ((1 - a) * (- p) + a * (- q)) by ring. apply exp_convex. lra.
  - rewrite <- !exp_Ropp, !Ropp_involutive. apply exp_convex. lra.
Qed.

(** * Step lengths *)
Definition amin : R := 99 / 100 * (/ 2) ^ 50.
Lemma amin_range : 0 < amin <= 1.
Proof.
  unfold amin. assert (0 < (/ 2) ^ 50) by (apply pow_lt; lra). assert ((/ 2) ^ 50 <= 1 ^ 50) by (apply pow_incr; lra). rewrite pow1 in *. lra.
Qed.
Lemma norm_loop_range n dx old a t : 99 / 100 <= a <= 1 -> amin <= norm_loop n dx old a (/ 2) t <= 1.
Proof.
  intros Ha. destruct (norm_loop_shape n dx old a (/ 2) t) as (m & Hm & _ & -> & _).
  assert (P : 0 < (/ 2) ^ m) by (apply pow_lt; lra). assert (L : (/ 2) ^ m <= 1 ^ m) by (apply pow_incr; lra). rewrite pow1 in L.
  assert (L2 : (/ 2) ^ 50 <= (/ 2) ^ m).
  { replace 50%nat with (m + (50 - m))%nat by lia. rewrite pow_add. rewrite <- (Rmult_1_r ((/ 2) ^ m)) at 2. apply Rmult_le_compat_l; [lra|].
    assert (Q : (/ 2) ^ (50 - m) <= 1 ^ (50 - m)) by (apply pow_incr; lra). rewrite pow1 in Q. exact Q. }
  assert (0 < (/ 2) ^ 50) by (apply pow_lt; lra). unfold amin. set (h := (/ 2) ^ 50) in *. set (g := (/ 2) ^ m) in *. clearbody h g. split; nra.
Qed.
Definition shrinks (n : nat) (x dx : nat -> R) : Prop := forall i, (i < n)%nat -> 0 < x i /\ - x i < dx i \/ x i = 0 /\ dx i = 0.
Lemma clamp_entry x d : 0 < x -> - x < d -> d <> 0 -> 0 <= (/ 100 - 1) * x / d -> 99 / 100 <= (/ 100 - 1) * x / d.
Proof.
  intros Px Hd Nd H. assert (D : d < 0).
  { destruct (Rlt_dec d 0) as [|N]; [assumption|]. exfalso. assert (P : 0 < / d) by (apply Rinv_0_lt_compat; lra). unfold Rdiv in H. nra. }
  replace ((/ 100 - 1) * x / d) with (99 / 100 * (x / (- d))) by (field; lra).
  assert (1 <= x / (- d)); [|lra]. apply Rmult_le_reg_r with (- d); [lra|]. unfold Rdiv. rewrite Rmult_assoc, Rinv_l; lra.
Qed.
Lemma clamp_ge_range n x dx : shrinks n x dx -> 99 / 100 <= clamp_ge n x dx 1 <= 1.
Proof.
  intros H. unfold clamp_ge. apply (loop_inv (fun _ a => 99 / 100 <= a <= 1)); [lra|]. intros i a Hi [L U].
  unfold fdiv. destruct (Req_EM_T (dx i) 0) as [Z|N].
  - destruct (Req_EM_T _ 0); [lra|]. destruct (Rlt_dec 0 _); lra.
  - destruct (Rle_dec 0 ((/ 100 - 1) * x i / dx i)) as [P|P]; [|lra].
    destruct (H i Hi) as [[Px Hd]|[_ Z]]; [|contradiction]. assert (Q := clamp_entry _ _ Px Hd N P).
    split; [apply Rmin_glb; lra|apply Rle_trans with a; [apply Rmin_l|lra]].
Qed.
Lemma clamp_gt_range n x dx : shrinks n x dx -> 99 / 100 <= clamp_gt n x dx 1 <= 1.
Proof.
  intros H. unfold clamp_gt. apply (loop_inv (fun _ a => 99 / 100 <= a <= 1)); [lra|]. intros i a Hi [L U].
  destruct (Req_EM_T (dx i) 0) as [Z|N]; [lra|]. cbv zeta. destruct (Rlt_dec 0 ((/ 100 - 1) * x i / dx i)) as [P|P]; [|lra].
  destruct (H i Hi) as [[Px Hd]|[_ Z]]; [|contradiction]. assert (Q := clamp_entry _ _ Px Hd N (Rlt_le _ _ P)).
  split; [apply Rmin_glb; lra|apply Rle_trans with a; [apply Rmin_l|lra]].
Qed.

(** * From [within] to distances *)
Lemma within_relative e a b : 0 <= e -> 0 <= a -> 0 <= b -> within (1 + e) a b -> relatively e a b.
Proof.
  intros He Pa Pb [H1 H2]. unfold relatively. apply Rabs_le. split; [|lra].
  assert (b * (1 - e) <= a); [|lra]. destruct (Rle_dec 1 e) as [G|G]; [nra|].
  apply Rmult_le_reg_l with (1 + e); [lra|]. nra.
Qed.
Lemma within_log e p q : 0 <= e -> within (1 + e) (exp (- p)) (exp (- q)) -> Rabs (p - q) <= e.
Proof.
  assert (G : forall p q, 0 <= e -> exp (- p) <= (1 + e) * exp (- q) -> q - p <= e).
  { clear. intros p q He H. assert (exp (q - p) <= 1 + e).
    { replace (q - p) with (- p + q) by ring. rewrite exp_plus. apply Rmult_le_compat_r with (r := exp q) in H; [|left; apply exp_pos].
      replace ((1 + e) * exp (- q) * exp q) with (1 + e) in H; [exact H|]. rewrite Rmult_assoc, <- exp_plus, Rplus_opp_l, exp_0. ring. }
    assert (Q := exp_above (q - p)). lra. }
  intros He [H1 H2]. apply Rabs_le. split.
  - assert (q - p <= e) by (apply G; assumption). lra.
  - apply G; assumption.
Qed.
Lemma norm2_abs n v : norm2 n v <= rsum n (fun i => Rabs (v i)).
Proof.
  assert (P : forall m, 0 <= rsum m (fun i => Rabs (v i))) by (intros m; apply rsum_nonneg; intros; apply Rabs_pos).
  unfold norm2, dot. rewrite <- (sqrt_square (rsum n (fun i => Rabs (v i)))) by apply P. apply sqrt_le_1_alt.
  induction n as [|n IH]; cbn [rsum]; [lra|]. specialize (P n). assert (Q := Rabs_pos (v n)).
  assert (E : v n * v n = Rabs (v n) * Rabs (v n)).
  { rewrite <- Rabs_mult. symmetry. apply Rabs_pos_eq. apply Rle_0_sqr. }
  rewrite E. nra.
Qed.
Lemma pow_small r K eps : 0 < r < 1 -> 0 <= K -> 0 < eps -> exists t, K * r ^ t <= eps.
Proof.
  intros Hr HK He. destruct (pow_lt_1_zero r ltac:(rewrite Rabs_pos_eq; lra) (eps / (K + 1))) as [N HN].
  { apply Rmult_lt_0_compat; [assumption|apply Rinv_0_lt_compat; lra]. }
  exists N. specialize (HN N (le_n N)). assert (P : 0 < r ^ N) by (apply pow_lt; lra). rewrite Rabs_pos_eq in HN by lra.
  apply Rle_trans with (K * (eps / (K + 1))); [apply Rmult_le_compat_l; lra|].
  replace (K * (eps / (K + 1))) with (eps * (K / (K + 1))) by (field; lra). rewrite <- (Rmult_1_r eps) at 2. apply Rmult_le_compat_l; [lra|].
  apply Rmult_le_reg_r with (K + 1); [lra|]. unfold Rdiv. rewrite Rmult_assoc, Rinv_l; lra.
Qed.
Lemma pow_below r t : 0 < r < 1 -> 0 < r ^ t <= 1.
Proof. intros H. split; [apply pow_lt; lra|]. assert (L : r ^ t <= 1 ^ t) by (apply pow_incr; lra). rewrite pow1 in L. exact L. Qed.
(** Means at a point whose image and itself are close to the same value. *)
Lemma mean_close e K k S x l : 0 <= e <= K -> 0 < k -> 0 < S -> 0 < x -> 0 < l -> within (1 + e) x l -> within (1 + e) (k / S) l ->
  relatively (e * (2 + K)) (x * S) k.
Proof.
  intros He Pk PS Px Pl [H1 H2] [H3 H4]. assert (PF : 0 < k / S) by (apply Rmult_lt_0_compat; [assumption|apply Rinv_0_lt_compat; assumption]).
  assert (Ek : k = k / S * S) by (field; lra). set (F := k / S) in *. clearbody F. rewrite Ek.
  assert (U : x <= (1 + e) * (1 + e) * F).
  { apply Rle_trans with (1 := H1). rewrite Rmult_assoc. apply Rmult_le_compat_l; lra. }
  assert (L : F <= (1 + e) * (1 + e) * x).
  { apply Rle_trans with (1 := H3). rewrite Rmult_assoc. apply Rmult_le_compat_l; lra. }
  assert (Q : (1 + e) * (1 + e) - 1 <= e * (2 + K)) by nra.
  assert (W : within (1 + e * (2 + K)) (x * S) (F * S)).
  { split.
    - apply Rle_trans with ((1 + e) * (1 + e) * F * S); [apply Rmult_le_compat_r; lra|].
      replace ((1 + e * (2 + K)) * (F * S)) with ((1 + e * (2 + K)) * F * S) by ring. apply Rmult_le_compat_r; [lra|]. apply Rmult_le_compat_r; lra.
    - apply Rle_trans with ((1 + e) * (1 + e) * x * S); [apply Rmult_le_compat_r; lra|].
      replace ((1 + e * (2 + K)) * (x * S)) with ((1 + e * (2 + K)) * x * S) by ring. apply Rmult_le_compat_r; [lra|]. apply Rmult_le_compat_r; lra. }
  apply within_relative; [nra|left; apply Rmult_lt_0_compat; assumption|left; apply Rmult_lt_0_compat; assumption|exact W].
Qed.
Lemma same_limit r K (a : nat -> R) p q : 0 < r < 1 -> 0 <= K -> 0 < p -> 0 < q -> (forall t, 0 < a t) ->
  (forall t, within (1 + K * r ^ t) (a t) p /\ within (1 + K * r ^ t) (a t) q) -> p <= q.
Proof.
  intros Hr HK Pp Pq Pa H. destruct (Rle_dec p q) as [|N]; [assumption|]. exfalso. apply Rnot_le_lt in N.
  set (d := (p / q - 1) / 4). assert (Hpq : 1 < p / q).
  { apply Rmult_lt_reg_r with q; [assumption|]. unfold Rdiv. rewrite Rmult_assoc, Rinv_l; lra. }
  destruct (pow_small r K (Rmin d 1) Hr HK) as [t Ht]; [apply Rmin_glb_lt; unfold d; lra|].
  destruct (H t) as [[_ H1] [H2 _]]. assert (Pt := pow_below r t Hr). assert (E0 : 0 <= K * r ^ t) by (apply Rmult_le_pos; lra).
  set (e := K * r ^ t) in *. assert (L1 : e <= d) by (apply Rle_trans with (1 := Ht), Rmin_l). assert (L2 : e <= 1) by (apply Rle_trans with (1 := Ht), Rmin_r).
  assert (B : p <= (1 + e) * ((1 + e) * q)) by (apply Rle_trans with (1 := H1); apply Rmult_le_compat_l; lra).
  assert (p / q <= 1 + 3 * d).
  { apply Rmult_le_reg_r with q; [assumption|]. unfold Rdiv. rewrite Rmult_assoc, Rinv_l, Rmult_1_r by lra.
    apply Rle_trans with (1 := B). replace ((1 + e) * ((1 + e) * q)) with ((1 + e) * (1 + e) * q) by ring. apply Rmult_le_compat_r; [lra|]. nra. }
  unfold d in *. lra.
Qed.

(** * From the sequence to the runs *)
Lemma assemble linsolve ok eigh fuel m a D search x0 r K B M (good near : R -> (nat -> R) -> Prop) :
  let P := run_problem eigh fuel m D a in
  0 < r < 1 -> 0 <= K -> 0 <= B -> 0 <= M ->
  (forall t, p_fun P (X P search x0 t) <> None) ->
  (search = true -> forall t old, p_lin_fp P (X P search x0 t) (fun i => gval P (X P search x0 t) i - X P search x0 t i) old 1 (/ 2) t <> None) ->
  (forall t, good (K * r ^ t) (X P search x0 t)) ->
  (forall e e' x, e <= e' -> near e x -> near e' x) ->
  (forall t, near (B * norm2 m (fun i => X P search x0 (S t) i - X P search x0 t i)) (X P search x0 (S t))) ->
  (forall t, norm2 m (fun i => X P search x0 (S t) i - X P search x0 t i) <= M * r ^ t) ->
  run_converges linsolve ok eigh fuel m a search x0 r good near D.
Proof.
  intros P Hr HK HB HM Tf Tl Hg Hmono Hnear Hd. split.
  - exists K, B. do 2 (split; [assumption|]). intros O (OM & OL & OF).
    destruct (run_traj linsolve ok m P search x0 Tf Tl O OM OL OF) as (k & ns & ds & als & E & Lk & _ & En & St).
    rewrite (seq_S k), map_app in En. cbn [Nat.add map] in En.
    exists (X P search x0 k), k, (map (fun u => norm2 m (gval P (X P search x0 u))) (seq 0 k)), (norm2 m (gval P (X P search x0 k))), ds, als.
    rewrite <- En. split; [exact E|]. split; [exact Lk|]. split; [apply Hg|]. intros He.
    destruct (St (proj2 He)) as [S1|[S1|(u & -> & S1)]]; [left; exact S1|right; left; exact S1|]. right. right.
    apply (Hmono (B * norm2 m (fun i => X P search x0 (S u) i - X P search x0 u i))); [|apply Hnear]. apply Rmult_le_compat_l; assumption.
  - intros eps He. destruct (pow_small r M eps Hr HM He) as [N HN]. exists (S N). intros O x t ns ds als (OM & OL & OF) Le E.
    destruct (run_traj linsolve ok m P search x0 Tf Tl O OM OL OF) as (k & ns' & ds' & als' & E' & _ & G & _).
    fold P in E. rewrite E in E'. injection E' as _ -> _ _ _. destruct (le_dec k (S N)) as [|Nk]; [assumption|]. exfalso.
    specialize (G N ltac:(lia)). specialize (Hd N). lra.
Qed.
Lemma assemble_norms linsolve ok eigh fuel m a D search x0 tol :
  let P := run_problem eigh fuel m D a in
  (forall t, p_fun P (X P search x0 t) <> None) ->
  (search = true -> forall t old, p_lin_fp P (X P search x0 t) (fun i => gval P (X P search x0 t) i - X P search x0 t i) old 1 (/ 2) t <> None) ->
  (forall t, tol <= norm2 m (gval P (X P search x0 t))) ->
  norms_above linsolve ok eigh fuel m a search x0 tol D.
Proof.
  intros P Tf Tl Hn O x t ns ds als (OM & OL & OF) E v Hv.
  destruct (run_traj linsolve ok m P search x0 Tf Tl O OM OL OF) as (k & ns' & ds' & als' & E' & _ & _ & En & _).
  fold P in E. rewrite E in E'. injection E' as _ _ -> _ _. rewrite En in Hv. apply in_map_iff in Hv. destruct Hv as (u & <- & _). apply Hn.
Qed.
Lemma near_mono_cm n c k e e' x : e <= e' -> cm_near n c k e x -> cm_near n c k e' x.
Proof. intros L H i Hi. specialize (H i Hi). lra. Qed.
Lemma near_mono_dcm n c ko ki e e' x : e <= e' -> dcm_near n c ko ki e x -> dcm_near n c ko ki e' x.
Proof. intros L H i Hi. destruct (H i Hi). split; lra. Qed.
Lemma within_bound K e a l : 0 <= e <= K -> 0 <= l -> within (1 + e) a l -> a <= (1 + K) * l.
Proof. intros He Hl [W _]. nra. Qed.
Lemma rsum_ge_term n (f : nat -> R) i : (forall j, (j < n)%nat -> 0 <= f j) -> (i < n)%nat -> f i <= rsum n f.
Proof.
  intros Hf Hi. rewrite (rsum_pull n i) by exact Hi. assert (0 <= rsum n (fun j => if Nat.eqb j i then 0 else f j)); [|lra].
  apply rsum_nonneg. intros j Hj. destruct (Nat.eqb j i); [lra|auto].
Qed.
Lemma step_part al a x g d : al <= a -> 0 < al -> Rabs ((1 - a) * x + a * g - x) <= d -> al * Rabs (g - x) <= d.
Proof.
  intros Ha Hl H. replace ((1 - a) * x + a * g - x) with (a * (g - x)) in H by ring. rewrite Rabs_mult, (Rabs_pos_eq a) in H by lra.
  apply Rle_trans with (2 := H). apply Rmult_le_compat_r; [apply Rabs_pos|exact Ha].
Qed.
Lemma norm2_nonneg n v : 0 <= norm2 n v.
Proof. apply sqrt_pos. Qed.

Lemma close_diff e W a b l : 0 <= e -> 0 <= a -> 0 <= b -> 0 <= l -> e <= W -> within (1 + W) a l -> within (1 + e) b l -> Rabs (b - a) <= 2 * W * l.
Proof.
  intros He Pa Pb Pl L H1 H2. apply within_relative in H1; [|lra|assumption|assumption]. apply within_relative in H2; [|lra|assumption|assumption].
  unfold relatively in *. replace (b - a) with ((b - l) - (a - l)) by ring. apply Rle_trans with (1 := Rabs_triang _ _). rewrite Rabs_Ropp. nra.
Qed.
Lemma mean_pull n c x y i : class_mean n c (p_dbcm x y) i = x i * pull n (cw c) x y i.
Proof.
  unfold class_mean, pull. rewrite <- rsum_scal_l. apply rsum_ext. intros j _. unfold cw, p_dbcm, Rdiv. ring.
Qed.
Lemma pairs_of n k s : (forall i, (i < n)%nat -> k i = 0 \/ 1 <= k i) -> cm_full n k s ->
  forall i, (i < n)%nat -> 1 <= k i /\ 0 < s i \/ k i = 0 /\ s i = 0.
Proof.
  intros Hk Hs i Hi. destruct (Hk i Hi) as [Z|L]; [right|left].
  - split; [assumption|]. apply Hs; assumption.
  - split; [assumption|]. apply Hs; [assumption|lra].
Qed.
Lemma pairs_full n k s x : (forall i, (i < n)%nat -> 1 <= k i /\ 0 < s i \/ k i = 0 /\ s i = 0) -> (cm_full n k x <-> paired_with n s x).
Proof.
  intros H. split.
  - intros F i Hi. destruct (H i Hi) as [[L P]|[Z E]]; [left|right]; (split; [assumption|]); apply F; auto; lra.
  - intros F i Hi. destruct (H i Hi) as [[L P]|[Z E]], (F i Hi) as [[A B]|[A B]]; try lra; split; intros; lra.
Qed.

(** * UBCM *)
Lemma cm_fx n c x i : rsum n (fun j => (if Nat.eqb i j then c j - 1 else c j) * (x j / (1 + x j * x i))) = pull n (cw c) x x i.
Proof.
  unfold pull. apply rsum_ext. intros j _. unfold cw. rewrite (Rmult_comm (x j) (x i)). destruct (Nat.eqb i j); f_equal; ring.
Qed.
Lemma iterative_cm_pull n k c x i : (i < n)%nat -> iterative_cm n k c x i =
  if Req_EM_T (pull n (cw c) x x i) 0 then 0 else k i / pull n (cw c) x x i.
Proof. intros Hi. rewrite iterative_cm_nf by exact Hi. cbv zeta. rewrite cm_fx. reflexivity. Qed.
Lemma iterative_cm_exp_pull n k c x i : iterative_cm_exp n k c x i =
  let p := pull n (cw c) (fun j => exp (- x j)) (fun j => exp (- x j)) i in if Req_EM_T p 0 then 0 else - ln (k i / p).
Proof.
  unfold iterative_cm_exp. cbv zeta.
  rewrite (loop_add n 0 _ (fun j => (if Nat.eqb i j then c j - 1 else c j) * (exp (- x j) / (1 + exp (- x j) * exp (- x i))))).
  - rewrite Rplus_0_l. rewrite (cm_fx n c (fun j => exp (- x j)) i). reflexivity.
  - intros j acc Hj. destruct (Nat.eqb i j); ring.
Qed.

Section UBCM.
  Variables (n : nat) (c k xs : nat -> R).
  Hypothesis HD : class_degrees n c k.
  Hypothesis Hne : nonempty n k.
  Hypothesis HF : cm_full n k xs.
  Hypothesis HM : forall i, (i < n)%nat -> class_mean n c (p_ubcm xs) i = k i.

  Local Lemma cm_pairs : forall i, (i < n)%nat -> 1 <= k i /\ 0 < xs i \/ k i = 0 /\ xs i = 0.
  Proof. apply pairs_of; [apply HD|exact HF]. Qed.
  Local Lemma cm_sol : forall i, (i < n)%nat -> k i = xs i * pull n (cw c) xs xs i.
  Proof. intros i Hi. rewrite <- HM by exact Hi. exact (mean_pull n c xs xs i). Qed.
  Local Lemma cm_some : exists i, (i < n)%nat /\ (0 < xs i \/ 0 < xs i).
  Proof. destruct Hne as (i & Hi & N). exists i. split; [exact Hi|]. left. apply HF; assumption. Qed.
  Local Lemma cm_pull_pos x i : paired_with n xs x -> (i < n)%nat -> 0 < xs i -> 0 < pull n (cw c) x x i.
  Proof.
    intros Hx Hi P. apply (pull_positive n (cw c) xs xs x x i); try assumption.
    - apply cw_weights. apply HD.
    - apply (pull_sys_o n c k xs xs cm_pairs cm_sol); assumption.
  Qed.
  Local Lemma cm_image x i : paired_with n xs x -> (i < n)%nat ->
    (0 < xs i -> iterative_cm n k c x i = k i / pull n (cw c) x x i /\ 0 < iterative_cm n k c x i) /\ (xs i = 0 -> iterative_cm n k c x i = 0).
  Proof.
    intros Hx Hi. rewrite iterative_cm_pull by exact Hi. split; intros P.
    - assert (Q := cm_pull_pos x i Hx Hi P). destruct (Req_EM_T _ 0); [lra|]. split; [reflexivity|].
      destruct (cm_pairs i Hi) as [[L _]|[_ Z]]; [|lra]. apply Rmult_lt_0_compat; [lra|apply Rinv_0_lt_compat; assumption].
    - destruct (cm_pairs i Hi) as [[_ L]|[Z _]]; [lra|]. destruct (Req_EM_T _ 0); [reflexivity|]. rewrite Z. unfold Rdiv. ring.
  Qed.

  (** The limit of any damped sequence is the solution. *)
  Lemma cm_limit : exists r, 0 < r < 1 /\ forall X, (forall t, fmove n c k k xs xs amin (X t) (X t) (X (S t)) (X (S t))) ->
    exists K, 0 <= K /\ forall t i, (i < n)%nat -> within (1 + K * r ^ t) (X t i) (xs i) /\ relatively (K * (2 + K) * r ^ t) (class_mean n c (p_ubcm (X t)) i) (k i).
  Proof.
    destruct amin_range as [Al1 Al2].
    destruct (system_converges n c k k xs xs amin (proj1 HD) cm_pairs cm_pairs cm_sol cm_sol Al1 Al2 cm_some) as (r & Hr & G).
    exists r. split; [exact Hr|]. intros X HT. destruct (G X X HT) as (K & l & PK & Pl & W). exists K. split; [exact PK|].
    assert (Px : forall t, paired_with n xs (X t)) by (intros t; apply (HT t)).
    assert (El : l = 1).
    { destruct cm_some as (i & Hi & P0). assert (P : 0 < xs i) by tauto. clear P0.
      assert (P1 : 0 < l * xs i) by (apply Rmult_lt_0_compat; assumption).
      assert (P2 : 0 < xs i / l) by (apply Rmult_lt_0_compat; [assumption|apply Rinv_0_lt_compat; assumption]).
      assert (Pa : forall t, 0 < X t i) by (intros t; destruct (Px t i Hi) as [[_ A]|[A _]]; lra).
      assert (L1 : l * xs i <= xs i / l) by (apply (same_limit r K (fun t => X t i)); try assumption; intros t; destruct (W t i Hi) as (W1 & W2 & _); auto).
      assert (L2 : xs i / l <= l * xs i) by (apply (same_limit r K (fun t => X t i)); try assumption; intros t; destruct (W t i Hi) as (W1 & W2 & _); auto).
      assert (E : l * l = 1).
      { assert (E1 : l * xs i * l = xs i / l * l) by (f_equal; lra). unfold Rdiv in E1. rewrite (Rmult_assoc (xs i)), Rinv_l, Rmult_1_r in E1 by lra.
        apply Rmult_eq_reg_r with (xs i); [|lra]. lra. }
      nra. }
    subst l. intros t i Hi. destruct (W t i Hi) as (W1 & _ & W3 & _). rewrite Rmult_1_l in *. split; [exact W1|].
    change (class_mean n c (p_ubcm (X t)) i) with (class_mean n c (p_dbcm (X t) (X t)) i). rewrite mean_pull.
    assert (Pt := pow_below r t Hr). assert (E0 : 0 <= K * r ^ t <= K) by (split; [apply Rmult_le_pos; lra|nra]).
    destruct (cm_pairs i Hi) as [[L P]|[Z E]].
    - replace (K * (2 + K) * r ^ t) with (K * r ^ t * (2 + K)) by ring.
      apply mean_close with (xs i); try assumption; [lra|apply cm_pull_pos; auto| |apply W3; assumption].
      destruct (Px t i Hi) as [[_ A]|[A _]]; lra.
    - destruct (Px t i Hi) as [[A _]|[_ A]]; [lra|]. unfold relatively. rewrite A, Z, Rmult_0_l, Rminus_0_r, Rabs_R0, Rmult_0_r. lra.
  Qed.

  Lemma cm_converges : exists r, 0 < r < 1 /\ forall linsolve ok eigh fuel reg search x0, cm_full n k x0 ->
    accepted u_dispatch "cm" "fixed-point" reg (fun D => run_converges linsolve ok eigh fuel n (A2 n k c) search x0 r
      (fun e x => (forall i, (i < n)%nat -> relatively e (x i) (xs i)) /\ cm_close n c k e x) (cm_near n c k) D /\
      exists tol, 0 < tol /\ norms_above linsolve ok eigh fuel n (A2 n k c) search x0 tol D).
  Proof.
    destruct cm_limit as (r & Hr & G). exists r. split; [exact Hr|]. intros linsolve ok eigh fuel reg search x0 H0.
    eexists. split; [reflexivity|].
    match goal with |- run_converges _ _ _ _ _ _ _ _ _ _ _ ?d /\ _ => set (D := d) end.
    set (P := run_problem eigh fuel n D (A2 n k c)).
    assert (Ef : forall x, paired_with n xs x -> p_fun P x = Some (iterative_cm n k c x)).
    { intros x Hx. change (p_fun P x) with (real_vec n (run_entry (Pos "iterative_cm") (A2 n k c) x)). rewrite ProofsEntries.e_iterative_cm; [apply all_fin_fin|].
      apply ProofsIEEE.cm_pairs_ok. intros i Hi. destruct (Hx i Hi); lra. }
    assert (Eg : forall x, paired_with n xs x -> gval P x = iterative_cm n k c x) by (intros x Hx; unfold gval; rewrite Ef by exact Hx; reflexivity).
    assert (El : forall x dx old a b t, p_lin_fp P x dx old a b t = Some (linsearch_fun_CM_fixed n x dx old a b t)) by reflexivity.
    assert (Step : forall t, paired_with n xs (X P search x0 t) -> amin <= A P search x0 t <= 1 /\ paired_with n xs (X P search x0 (S t))).
    { intros t Hx.
      assert (HA : amin <= A P search x0 t <= 1).
      { unfold A, aval. destruct search; [|assert (R := amin_range); lra]. rewrite El. apply norm_loop_range. apply clamp_ge_range.
        intros i Hi. rewrite Eg by exact Hx. destruct (cm_image _ i Hx Hi) as [I1 I2]. destruct (Hx i Hi) as [[Q1 Q2]|[Q1 Q2]].
        - left. split; [exact Q2|]. destruct (I1 Q1) as [_ I3]. lra.
        - right. split; [exact Q2|]. rewrite (I2 Q1), Q2. ring. }
      split; [exact HA|]. assert (R := amin_range). intros i Hi. rewrite X_S, Eg by exact Hx. destruct (cm_image _ i Hx Hi) as [I1 I2]. destruct (Hx i Hi) as [[Q1 Q2]|[Q1 Q2]].
      - left. split; [exact Q1|]. destruct (I1 Q1) as [_ I3]. nra.
      - right. split; [exact Q1|]. rewrite (I2 Q1), Q2. ring. }
    assert (Px : forall t, paired_with n xs (X P search x0 t)).
    { induction t as [|t IH]; [|apply Step; exact IH]. rewrite X_0. apply (pairs_full n k xs x0 cm_pairs). exact H0. }
    assert (HT : forall t, fmove n c k k xs xs amin (X P search x0 t) (X P search x0 t) (X P search x0 (S t)) (X P search x0 (S t))).
    { intros t. assert (Q : forall i, (i < n)%nat -> 0 < xs i -> damped amin (X P search x0 t i) (k i / pull n (cw c) (X P search x0 t) (X P search x0 t) i) (X P search x0 (S t) i)).
      { intros i Hi Q1. rewrite X_S, Eg by exact (Px t). destruct (cm_image _ i (Px t) Hi) as [I1 _]. destruct (I1 Q1) as [I2 I3]. rewrite I2 in *.
        apply damped_arith; [apply Step, Px|apply amin_range| |exact I3]. destruct (Px t i Hi) as [[_ B]|[B _]]; lra. }
      do 4 (split; [apply Px|]). split; exact Q. }
    destruct (G (X P search x0) HT) as (K & PK & W).
    assert (Ns : forall j, (j < n)%nat -> 0 <= xs j) by (intros j Hj; destruct (cm_pairs j Hj); lra).
    set (U := (1 + K) * rsum n xs).
    assert (IU : forall t, inside n U (X P search x0 t)).
    { intros t j Hj. split; [destruct (Px t j Hj); lra|]. assert (Pt := pow_below r t Hr).
      apply Rle_trans with ((1 + K) * xs j); [apply (within_bound K (K * r ^ t)); [split; [apply Rmult_le_pos; lra|nra]|auto|apply W; exact Hj]|].
      unfold U. apply Rmult_le_compat_l; [lra|]. apply rsum_ge_term; assumption. }
    assert (Sc : 0 <= rsum n c) by (apply rsum_nonneg; intros j Hj; assert (1 <= c j) by (apply HD; exact Hj); lra).
    assert (U0 : 0 <= U) by (unfold U; apply Rmult_le_pos; [lra|apply rsum_nonneg; assumption]).
    assert (Ra := amin_range). assert (Ia : 0 < / amin) by (apply Rinv_0_lt_compat; lra).
    assert (Bp : 0 <= rsum n c * U) by (apply Rmult_le_pos; assumption).
    split; [|destruct Hne as (h & Hh & Nh); assert (Ph : 0 < xs h) by (apply HF; assumption); exists (/ (rsum n c * U + 1)); split; [apply Rinv_0_lt_compat; lra|];
      apply assemble_norms;
      [intros t; fold P; rewrite Ef by exact (Px t); discriminate|intros _ t old; fold P; rewrite El; discriminate|intros t; fold P; rewrite Eg by exact (Px t)]].
    2:{ apply Rle_trans with (2 := norm2_ge n _ h Hh). destruct (cm_image _ h (Px t) Hh) as [I1 _]. destruct (I1 Ph) as [I2 I3]. rewrite Rabs_pos_eq by lra. rewrite I2.
        assert (Q := cm_pull_pos _ h (Px t) Hh Ph). destruct (pull_bound n c _ _ h U (proj1 HD) Hh (IU t) (IU t)) as [_ Q2].
        destruct (cm_pairs h Hh) as [[L _]|[_ Z]]; [|lra]. assert (Q3 : / (rsum n c * U + 1) <= / pull n (cw c) (X P search x0 t) (X P search x0 t) h) by (apply Rinv_le_contravar; lra).
        assert (0 < / (rsum n c * U + 1)) by (apply Rinv_0_lt_compat; lra). unfold Rdiv. nra. }
    apply (assemble linsolve ok eigh fuel n (A2 n k c) D search x0 r (K * (2 + K)) (rsum n c * U * (2 + / amin)) (2 * K * rsum n xs)).
    - exact Hr.
    - nra.
    - apply Rmult_le_pos; lra.
    - apply Rmult_le_pos; [lra|]. apply rsum_nonneg. intros j Hj. destruct (cm_pairs j Hj); lra.
    - intros t. fold P. rewrite Ef by exact (Px t). discriminate.
    - intros _ t old. fold P. rewrite El. discriminate.
    - intros t. fold P. split; [|intros i Hi; apply W; exact Hi]. intros i Hi. destruct (W t i Hi) as [W1 W2].
      assert (Pt := pow_below r t Hr). specialize (Ns i Hi). assert (Nx : 0 <= X P search x0 t i) by (destruct (Px t i Hi); lra).
      apply within_relative; try assumption; [apply Rmult_le_pos; nra|]. apply (within_mono (1 + K * r ^ t)); try assumption.
      assert (K * r ^ t <= K * (2 + K) * r ^ t) by (apply Rmult_le_compat_r; nra). lra.
    - apply near_mono_cm.
    - intros t i Hi. fold P. set (d := norm2 n _).
      assert (Ap : apart n d (X P search x0 t) (X P search x0 (S t))) by (intros j Hj; exact (norm2_ge n (fun i => X P search x0 (S t) i - X P search x0 t i) j Hj)).
      change (p_ubcm (X P search x0 (S t))) with (p_dbcm (X P search x0 (S t)) (X P search x0 (S t))).
      apply (residual_linear n c (k i) (X P search x0 t) (X P search x0 t) (X P search x0 (S t)) (X P search x0 (S t)) (iterative_cm n k c (X P search x0 t) i)); try assumption; try apply IU.
      + apply HD.
      + apply norm2_nonneg.
      + destruct (cm_pairs i Hi) as [[L P0]|[Z E]].
        * left. split; [apply cm_pull_pos; auto|]. apply (cm_image _ i (Px t) Hi). exact P0.
        * right. split; [exact Z|]. destruct (Px t i Hi); lra.
      + destruct (Step t (Px t)) as [HA _]. apply (step_part amin (A P search x0 t)); [lra|lra|]. rewrite <- Eg, <- X_S by exact (Px t). apply (Ap i Hi).
    - intros t. fold P. apply Rle_trans with (1 := norm2_abs _ _). apply Rle_trans with (rsum n (fun i => 2 * (K * r ^ t) * xs i)).
      + apply rsum_le. intros i Hi. assert (Pt := pow_below r t Hr). assert (Pt' := pow_below r (S t) Hr).
        specialize (Ns i Hi).
        apply (close_diff (K * r ^ S t) (K * r ^ t)).
        * apply Rmult_le_pos; lra.
        * destruct (Px t i Hi); lra.
        * destruct (Px (S t) i Hi); lra.
        * exact Ns.
        * apply Rmult_le_compat_l; [lra|]. cbn [pow]. nra.
        * apply W; exact Hi.
        * apply W; exact Hi.
      + rewrite rsum_scal_l. right. ring.
  Qed.
End UBCM.

Section UBCMexp.
  Variables (n : nat) (c k ths : nat -> R).
  Hypothesis Hn : (0 < n)%nat.
  Hypothesis Hc : forall i, (i < n)%nat -> 1 <= c i.
  Hypothesis Hk : forall i, (i < n)%nat -> 1 <= k i.
  Hypothesis HM : forall i, (i < n)%nat -> class_mean n c (p_ubcm (expn ths)) i = k i.

  Local Lemma ex_degrees : class_degrees n c k.
  Proof. split; [exact Hc|]. intros i Hi. right. auto. Qed.
  Local Lemma ex_nonempty : nonempty n k.
  Proof. exists 0%nat. split; [exact Hn|]. specialize (Hk 0%nat Hn). lra. Qed.
  Local Lemma ex_full : cm_full n k (expn ths).
  Proof. intros i Hi. split; [intros _; apply exp_pos|]. specialize (Hk i Hi). intros; lra. Qed.
  Local Lemma ex_paired th : paired_with n (expn ths) (expn th).
  Proof. intros i Hi. left. split; apply exp_pos. Qed.

  Lemma cm_exp_converges : exists r, 0 < r < 1 /\ forall linsolve ok eigh fuel reg search th0,
    accepted u_dispatch "cm_exp" "fixed-point" reg (run_converges linsolve ok eigh fuel n (A2 n k c) search th0 r
      (fun e th => (forall i, (i < n)%nat -> Rabs (th i - ths i) <= e) /\ cm_close n c k e (expn th)) (fun e th => cm_near n c k e (expn th))).
  Proof.
    destruct (cm_limit n c k (expn ths) ex_degrees ex_nonempty ex_full HM) as (r & Hr & G). exists r. split; [exact Hr|].
    intros linsolve ok eigh fuel reg search x0.
    eexists. split; [reflexivity|].
    match goal with |- run_converges _ _ _ _ _ _ _ _ _ _ _ ?d => set (D := d) end.
    set (P := run_problem eigh fuel n D (A2 n k c)).
    assert (Fm : forall x i, (i < n)%nat -> ModelIEEE.fiterative_cm_exp n k c x i = Fin (iterative_cm_exp n k c x i)).
    { intros x i Hi. apply ProofsIEEE.fcm_exp_map_fin; [specialize (Hk i Hi); lra|exact Hc]. }
    assert (Ef : forall x, exists f, p_fun P x = Some f /\ forall i, (i < n)%nat -> f i = iterative_cm_exp n k c x i).
    { intros x. exists (fun i => match ModelIEEE.fiterative_cm_exp n k c x i with Fin a => a | _ => 0 end). split.
      - change (p_fun P x) with (all_fin n (ModelIEEE.fiterative_cm_exp n k c x)). unfold all_fin.
        replace (forallb _ (seq 0 n)) with true; [reflexivity|]. symmetry. apply forallb_forall. intros q Hq. apply in_seq in Hq. rewrite Fm by lia. reflexivity.
      - intros i Hi. rewrite Fm by exact Hi. reflexivity. }
    assert (Eg : forall x i, (i < n)%nat -> gval P x i = iterative_cm_exp n k c x i) by (intros x i Hi; unfold gval; destruct (Ef x) as (f & -> & F); apply F, Hi).
    assert (El : forall x dx old a b t, p_lin_fp P x dx old a b t = Some (linsearch_fun_CM_exp_fixed n dx old a b t)) by reflexivity.
    assert (HA : forall t, amin <= A P search x0 t <= 1).
    { intros t. unfold A, aval. destruct search; [|assert (R := amin_range); lra]. rewrite El. apply norm_loop_range. lra. }
    assert (Im : forall th i, (i < n)%nat -> exp (- iterative_cm_exp n k c th i) = k i / pull n (cw c) (expn th) (expn th) i).
    { intros th i Hi. rewrite iterative_cm_exp_pull. cbv zeta. fold (expn th).
      assert (Q := cm_pull_pos n c k (expn ths) ex_degrees ex_full HM (expn th) i (ex_paired th) Hi (exp_pos _)).
      destruct (Req_EM_T _ 0); [unfold expn in *; lra|]. rewrite Ropp_involutive. apply exp_ln. specialize (Hk i Hi).
      apply Rmult_lt_0_compat; [lra|apply Rinv_0_lt_compat; exact Q]. }
    assert (HT : forall t, fmove n c k k (expn ths) (expn ths) amin (expn (X P search x0 t)) (expn (X P search x0 t)) (expn (X P search x0 (S t))) (expn (X P search x0 (S t)))).
    { intros t. assert (Q : forall i, (i < n)%nat -> 0 < expn ths i -> damped amin (expn (X P search x0 t) i)
        (k i / pull n (cw c) (expn (X P search x0 t)) (expn (X P search x0 t)) i) (expn (X P search x0 (S t)) i)).
      { intros i Hi _. rewrite <- Im by exact Hi. unfold expn at 2. rewrite X_S, Eg by exact Hi. apply damped_geom; [apply HA|apply amin_range]. }
      do 4 (split; [apply ex_paired|]). split; exact Q. }
    destruct (G (fun t => expn (X P search x0 t)) HT) as (K & PK & W).
    assert (Sc : 0 <= rsum n c) by (apply rsum_nonneg; intros j Hj; specialize (Hc j Hj); lra).
    assert (Ra := amin_range). assert (Ia : 0 < / amin) by (apply Rinv_0_lt_compat; lra).
    apply (assemble linsolve ok eigh fuel n (A2 n k c) D search x0 r (K * (2 + K)) (rsum n c * (2 + / amin)) (2 * K * INR n)).
    - exact Hr.
    - nra.
    - apply Rmult_le_pos; lra.
    - apply Rmult_le_pos; [lra|]. apply pos_INR.
    - intros t. fold P. destruct (Ef (X P search x0 t)) as (f & -> & _). discriminate.
    - intros _ t old. fold P. rewrite El. discriminate.
    - intros t. fold P. split; [|intros i Hi; apply W; exact Hi]. intros i Hi. destruct (W t i Hi) as [W1 W2].
      assert (Pt := pow_below r t Hr). apply within_log in W1; [|apply Rmult_le_pos; lra].
      assert (K * r ^ t <= K * (2 + K) * r ^ t) by (apply Rmult_le_compat_r; nra). lra.
    - intros e e' x. apply near_mono_cm.
    - intros t i Hi. fold P. set (d := norm2 n _).
      assert (Ap : apart n d (X P search x0 t) (X P search x0 (S t))) by (intros j Hj; exact (norm2_ge n (fun i => X P search x0 (S t) i - X P search x0 t i) j Hj)).
      change (p_ubcm (expn (X P search x0 (S t)))) with (p_dbcm (expn (X P search x0 (S t))) (expn (X P search x0 (S t)))).
      apply (residual_exp n c (k i) (X P search x0 t) (X P search x0 t) (X P search x0 (S t)) (X P search x0 (S t)) (iterative_cm_exp n k c (X P search x0 t) i)); try assumption.
      + apply norm2_nonneg.
      + assert (L := Hk i Hi). split; [lra|]. rewrite <- (HM i Hi). apply mean_bound; try assumption; intros; left; apply exp_pos.
      + exact (cm_pull_pos n c k (expn ths) ex_degrees ex_full HM (expn (X P search x0 t)) i (ex_paired _) Hi (exp_pos _)).
      + apply Im. exact Hi.
      + apply (step_part amin (A P search x0 t)); [apply HA|lra|]. rewrite <- Eg, <- X_S by exact Hi. apply (Ap i Hi).
    - intros t. fold P. apply Rle_trans with (1 := norm2_abs _ _). apply Rle_trans with (rsum n (fun i => 2 * (K * r ^ t))).
      + apply rsum_le. intros i Hi. assert (Pt := pow_below r t Hr). assert (Pt' := pow_below r (S t) Hr).
        destruct (W t i Hi) as [W1 _]. destruct (W (S t) i Hi) as [W2 _]. apply within_log in W1; [|apply Rmult_le_pos; lra]. apply within_log in W2; [|apply Rmult_le_pos; lra].
        assert (L : K * r ^ S t <= K * r ^ t) by (apply Rmult_le_compat_l; [lra|]; cbn [pow]; nra).
        replace (X P search x0 (S t) i - X P search x0 t i) with ((X P search x0 (S t) i - ths i) - (X P search x0 t i - ths i)) by ring.
        apply Rle_trans with (1 := Rabs_triang _ _). rewrite Rabs_Ropp. lra.
      + rewrite rsum_const. right. ring.
  Qed.
End UBCMexp.

(** * DBCM *)
Lemma dcm_f_out_pull n c x i : dcm_f_out n c x i = pull n (cw c) x (fun j => x (j + n)%nat) i.
Proof.
  unfold dcm_f_out, pull. rewrite (loop_add n 0 _ (fun j => cw c i j * (x (j + n)%nat / (1 + x i * x (j + n)%nat)))).
  - ring.
  - intros j acc Hj. unfold cw. rewrite (Nat.eqb_sym j i). destruct (Nat.eqb i j); simpl; unfold Rdiv; ring.
Qed.
Lemma dcm_f_in_pull n c x j : dcm_f_in n c x j = pull n (cw c) (fun j => x (j + n)%nat) x j.
Proof.
  unfold dcm_f_in, pull. rewrite (loop_add n 0 _ (fun i => cw c j i * (x i / (1 + x (j + n)%nat * x i)))).
  - ring.
  - intros i acc Hi. unfold cw. rewrite (Rmult_comm (x (j + n)%nat) (x i)). destruct (Nat.eqb j i); simpl; unfold Rdiv; ring.
Qed.


Section DBCM.
  Variables (n : nat) (c ko ki xs : nat -> R).
  Hypotheses (HDo : class_degrees n c ko) (HDi : class_degrees n c ki).
  Hypotheses (Hno : nonempty n ko) (Hni : nonempty n ki).
  Hypotheses (HFo : cm_full n ko xs) (HFi : cm_full n ki (shift n xs)).
  Hypothesis HMo : forall i, (i < n)%nat -> class_mean n c (p_dbcm xs (shift n xs)) i = ko i.
  Hypothesis HMi : forall i, (i < n)%nat -> class_mean n c (p_dbcm (shift n xs) xs) i = ki i.

  Local Lemma d_pairs_o : forall i, (i < n)%nat -> 1 <= ko i /\ 0 < xs i \/ ko i = 0 /\ xs i = 0.
  Proof. apply pairs_of; [apply HDo|exact HFo]. Qed.
  Local Lemma d_pairs_i : forall i, (i < n)%nat -> 1 <= ki i /\ 0 < shift n xs i \/ ki i = 0 /\ shift n xs i = 0.
  Proof. apply pairs_of; [apply HDi|exact HFi]. Qed.
  Local Lemma d_sol_o : forall i, (i < n)%nat -> ko i = xs i * pull n (cw c) xs (shift n xs) i.
  Proof. intros i Hi. rewrite <- HMo by exact Hi. apply mean_pull. Qed.
  Local Lemma d_sol_i : forall i, (i < n)%nat -> ki i = shift n xs i * pull n (cw c) (shift n xs) xs i.
  Proof. intros i Hi. rewrite <- HMi by exact Hi. apply mean_pull. Qed.
  Local Lemma d_some : exists i, (i < n)%nat /\ (0 < xs i \/ 0 < shift n xs i).
  Proof. destruct Hno as (i & Hi & N). exists i. split; [exact Hi|]. left. apply HFo; assumption. Qed.
End DBCM.
(** Every node has a possible partner, whether or not it has links. *)
Lemma partner n c a b k h i : (forall i, (i < n)%nat -> 1 <= c i) -> (h < n)%nat -> (i < n)%nat -> 0 < a h -> (forall j, (j < n)%nat -> 0 <= b j) ->
  1 <= k -> k = a h * pull n (cw c) a b h -> exists j, (j < n)%nat /\ 0 < b j /\ 0 < cw c i j.
Proof.
  intros Hc Hh Hi Pa Pb K E. assert (M := mass n c Hc a b k h Hh Pa Pb K E).
  assert (D : (exists j, (j < n)%nat /\ 0 < b j /\ 0 < cw c i j) \/ forall j, (j < n)%nat -> ~ (0 < b j /\ 0 < cw c i j)).
  { assert (G : forall m, (m <= n)%nat -> (exists j, (j < n)%nat /\ 0 < b j /\ 0 < cw c i j) \/ forall j, (j < m)%nat -> ~ (0 < b j /\ 0 < cw c i j)).
    { induction m as [|m IH]; intros Hm; [right; intros; lia|]. destruct IH as [IH|IH]; [lia|left; assumption|].
      destruct (Rlt_dec 0 (b m)) as [p|p], (Rlt_dec 0 (cw c i m)) as [q|q];
        try (right; intros j Hj; destruct (Nat.eq_dec j m) as [->|]; [tauto|apply IH; lia]).
      left. exists m. split; [lia|]. tauto. }
    apply (G n); lia. }
  destruct D as [D|D]; [exact D|exfalso].
  assert (B : rsum n (fun j => if Rlt_dec 0 (b j) then cw c h j else 0) <= 1); [|lra].
  apply Rle_trans with (rsum n (fun j => if Nat.eqb j i then 1 else 0)).
  - apply rsum_le. intros j Hj. specialize (D j Hj). destruct (Rlt_dec 0 (b j)) as [P|P]; [|destruct (Nat.eqb j i); lra].
    assert (Cj := Hc j Hj). unfold cw in D |- *. destruct (Nat.eqb_spec i j) as [Ej|Ne].
    + subst j. rewrite Nat.eqb_refl. destruct (Nat.eqb h i); [|]; destruct (Rlt_dec 0 (c i - 1)); try tauto; lra.
    + exfalso. apply D. split; [exact P|lra].
  - rewrite (rsum_pull n i _ Hi), Nat.eqb_refl, rsum_zero; [lra|]. intros j _. destruct (Nat.eqb j i); reflexivity.
Qed.
Lemma pull_partner n c (s x y : nat -> R) i j : (forall i, (i < n)%nat -> 1 <= c i) -> (i < n)%nat -> (j < n)%nat -> 0 <= x i -> (forall j, (j < n)%nat -> 0 <= y j) ->
  0 < y j -> 0 < cw c i j -> 0 < pull n (cw c) x y i.
Proof.
  intros Hc Hi Hj Px Py Pj Pc. unfold pull. apply rsum_pos with j; [|exact Hj|].
  - intros h Hh. apply Rmult_le_pos; [apply (w_nonneg _ _ (cw_weights n c Hc)); assumption|].
    specialize (Py h Hh). apply Rmult_le_pos; [exact Py|]. left. apply Rinv_0_lt_compat. assert (0 <= x i * y h) by (apply Rmult_le_pos; assumption). lra.
  - apply Rmult_lt_0_compat; [exact Pc|]. apply Rmult_lt_0_compat; [exact Pj|]. apply Rinv_0_lt_compat. assert (0 <= x i * y j) by (apply Rmult_le_pos; lra). lra.
Qed.

Section DBCM2.
  Variables (n : nat) (c ko ki xs : nat -> R).
  Hypotheses (HDo : class_degrees n c ko) (HDi : class_degrees n c ki).
  Hypotheses (Hno : nonempty n ko) (Hni : nonempty n ki).
  Hypotheses (HFo : cm_full n ko xs) (HFi : cm_full n ki (shift n xs)).
  Hypothesis HMo : forall i, (i < n)%nat -> class_mean n c (p_dbcm xs (shift n xs)) i = ko i.
  Hypothesis HMi : forall i, (i < n)%nat -> class_mean n c (p_dbcm (shift n xs) xs) i = ki i.
  Local Lemma Pro : forall i, (i < n)%nat -> 1 <= ko i /\ 0 < xs i \/ ko i = 0 /\ xs i = 0.
  Proof. exact (d_pairs_o n c ko xs HDo HFo). Qed.
  Local Lemma Pri : forall i, (i < n)%nat -> 1 <= ki i /\ 0 < shift n xs i \/ ki i = 0 /\ shift n xs i = 0.
  Proof. exact (d_pairs_i n c ki xs HDi HFi). Qed.
  Local Lemma Slo : forall i, (i < n)%nat -> ko i = xs i * pull n (cw c) xs (shift n xs) i.
  Proof. exact (d_sol_o n c ko xs HMo). Qed.
  Local Lemma Sli : forall i, (i < n)%nat -> ki i = shift n xs i * pull n (cw c) (shift n xs) xs i.
  Proof. exact (d_sol_i n c ki xs HMi). Qed.

  Lemma d_pull_o x y i : paired_with n xs x -> paired_with n (shift n xs) y -> (i < n)%nat -> 0 < pull n (cw c) x y i.
  Proof.
    intros Hx Hy Hi. destruct Hno as (h & Hh & N). destruct (Pro h Hh) as [[L P]|[Z _]]; [|contradiction].
    assert (Nb : forall j, (j < n)%nat -> 0 <= shift n xs j) by (intros j Hj; destruct (Pri j Hj); lra).
    destruct (partner n c xs (shift n xs) (ko h) h i (proj1 HDo) Hh Hi P Nb L (Slo h Hh)) as (j & Hj & Pj & Pc).
    apply (pull_partner n c xs x y i j (proj1 HDo) Hi Hj); try assumption.
    - destruct (Hx i Hi); lra.
    - intros q Hq. destruct (Hy q Hq); lra.
    - destruct (Hy j Hj) as [[_ Q]|[Q _]]; lra.
  Qed.
  Lemma d_pull_i x y i : paired_with n xs x -> paired_with n (shift n xs) y -> (i < n)%nat -> 0 < pull n (cw c) y x i.
  Proof.
    intros Hx Hy Hi. destruct Hni as (h & Hh & N). destruct (Pri h Hh) as [[L P]|[Z _]]; [|contradiction].
    assert (Nb : forall j, (j < n)%nat -> 0 <= xs j) by (intros j Hj; destruct (Pro j Hj); lra).
    destruct (partner n c (shift n xs) xs (ki h) h i (proj1 HDo) Hh Hi P Nb L (Sli h Hh)) as (j & Hj & Pj & Pc).
    apply (pull_partner n c xs y x i j (proj1 HDo) Hi Hj); try assumption.
    - destruct (Hy i Hi); lra.
    - intros q Hq. destruct (Hx q Hq); lra.
    - destruct (Hx j Hj) as [[_ Q]|[Q _]]; lra.
  Qed.
  Definition both_blocks (l : R) (r : nat) : R := if Nat.ltb r n then l * xs r else xs r / l.
  Lemma dcm_limit : exists r, 0 < r < 1 /\ forall X Y, (forall t, fmove n c ko ki xs (shift n xs) amin (X t) (Y t) (X (S t)) (Y (S t))) ->
    exists K l, 0 <= K /\ 0 < l /\ forall t i, (i < n)%nat ->
      within (1 + K * r ^ t) (X t i) (l * xs i) /\ within (1 + K * r ^ t) (Y t i) (shift n xs i / l) /\
      relatively (K * (2 + K) * r ^ t) (class_mean n c (p_dbcm (X t) (Y t)) i) (ko i) /\
      relatively (K * (2 + K) * r ^ t) (class_mean n c (p_dbcm (Y t) (X t)) i) (ki i).
  Proof.
    destruct amin_range as [Al1 Al2].
    destruct (system_converges n c ko ki xs (shift n xs) amin (proj1 HDo) Pro Pri Slo Sli Al1 Al2 (d_some n ko xs Hno HFo)) as (r & Hr & G).
    exists r. split; [exact Hr|]. intros X Y HT. destruct (G X Y HT) as (K & l & PK & Pl & W). exists K, l. split; [exact PK|]. split; [exact Pl|].
    intros t i Hi. destruct (W t i Hi) as (W1 & W2 & W3 & W4). split; [exact W1|]. split; [exact W2|]. rewrite !mean_pull.
    destruct (HT t) as (Hx & Hy & _).
    assert (Pt := pow_below r t Hr). assert (E0 : 0 <= K * r ^ t <= K) by (split; [apply Rmult_le_pos; lra|nra]).
    replace (K * (2 + K) * r ^ t) with (K * r ^ t * (2 + K)) by ring.
    split.
    - destruct (Pro i Hi) as [[L P]|[Z E]].
      + apply mean_close with (l * xs i); try assumption; [lra|apply d_pull_o; assumption| |apply Rmult_lt_0_compat; assumption|apply W3; assumption].
        destruct (Hx i Hi) as [[_ B]|[B _]]; lra.
      + destruct (Hx i Hi) as [[B _]|[_ B]]; [lra|]. unfold relatively. rewrite B, Z, Rmult_0_l, Rminus_0_r, Rabs_R0, Rmult_0_r. lra.
    - destruct (Pri i Hi) as [[L P]|[Z E]].
      + apply mean_close with (shift n xs i / l); try assumption; [lra|apply d_pull_i; assumption| | |apply W4; assumption].
        * destruct (Hy i Hi) as [[_ B]|[B _]]; lra.
        * apply Rmult_lt_0_compat; [assumption|apply Rinv_0_lt_compat; assumption].
      + destruct (Hy i Hi) as [[B _]|[_ B]]; [lra|]. unfold relatively. rewrite B, Z, Rmult_0_l, Rminus_0_r, Rabs_R0, Rmult_0_r. lra.
  Qed.
  (** The limit is a solution. *)
  Lemma both_blocks_solution l : 0 < l -> dcm_solution n c ko ki (both_blocks l).
  Proof.
    intros Pl.
    assert (E1 : forall i, (i < n)%nat -> both_blocks l i = l * xs i) by (intros i Hi; unfold both_blocks; apply Nat.ltb_lt in Hi; rewrite Hi; reflexivity).
    assert (E2 : forall i, shift n (both_blocks l) i = shift n xs i / l) by (intros i; unfold shift, both_blocks; destruct (Nat.ltb_spec (i + n) n); [lia|reflexivity]).
    assert (Il : 0 < / l) by (apply Rinv_0_lt_compat; assumption).
    split; [|split].
    - intros i Hi. rewrite E1 by exact Hi. destruct (HFo i Hi) as [F1 F2]. split; intros H; [apply Rmult_lt_0_compat; auto|rewrite F2 by exact H; ring].
    - intros i Hi. rewrite E2. destruct (HFi i Hi) as [F1 F2]. split; intros H; [apply Rmult_lt_0_compat; auto|rewrite F2 by exact H; unfold Rdiv; ring].
    - intros i Hi. rewrite <- HMo, <- HMi by exact Hi. unfold class_mean, p_dbcm. split; apply rsum_ext; intros j Hj; rewrite E1, E2 by assumption.
      + replace (l * xs i * (shift n xs j / l)) with (xs i * shift n xs j) by (field; lra). reflexivity.
      + replace (shift n xs i / l * (l * xs j)) with (shift n xs i * xs j) by (field; lra). reflexivity.
  Qed.

  Lemma dcm_converges : exists r, 0 < r < 1 /\ forall linsolve ok eigh fuel reg search nzo nzi x0, cm_full n ko x0 -> cm_full n ki (shift n x0) ->
    exists z, dcm_solution n c ko ki z /\
    accepted d_dispatch "dcm" "fixed-point" reg (fun D => run_converges linsolve ok eigh fuel (2 * n) (A5d n ko ki nzo nzi c) search x0 r
      (fun e x => (forall i, (i < 2 * n)%nat -> relatively e (x i) (z i)) /\ dcm_close n c ko ki e x) (dcm_near n c ko ki) D /\
      exists tol, 0 < tol /\ norms_above linsolve ok eigh fuel (2 * n) (A5d n ko ki nzo nzi c) search x0 tol D).
  Proof.
    destruct dcm_limit as (r & Hr & G). exists r. split; [exact Hr|]. intros linsolve ok eigh fuel reg search nzo nzi x0 H0 H0'.
    set (d := match d_dispatch "dcm" "fixed-point" reg with inl d => d | inr _ => {| d_fun := Nothing; d_jac := Nothing; d_step := Nothing; d_lins := ""; d_obj := ""; d_reg := "" |} end).
    assert (Ed : d_dispatch "dcm" "fixed-point" reg = inl d) by reflexivity.
    set (P := run_problem eigh fuel (2 * n) d (A5d n ko ki nzo nzi c)).
    set (img := fun x r => if Nat.ltb r n then ko r / pull n (cw c) x (shift n x) r else ki (r - n)%nat / pull n (cw c) (shift n x) x (r - n)%nat).
    assert (Ef : forall x, paired_with n xs x -> paired_with n (shift n xs) (shift n x) -> exists f, p_fun P x = Some f /\ forall r, (r < 2 * n)%nat -> f r = img x r).
    { intros x Hx Hy. assert (F : forall q, (q < 2 * n)%nat -> iterative_dcm n ko ki c x q = Fin (img x q)).
      { intros q Hq. unfold iterative_dcm, img. rewrite dcm_f_out_pull, dcm_f_in_pull. fold (shift n x). destruct (Nat.ltb_spec q n) as [Lq|Lq].
        - assert (Q := d_pull_o x (shift n x) q Hx Hy Lq). unfold fdiv. destruct (Req_EM_T _ 0); [lra|reflexivity].
        - assert (Q := d_pull_i x (shift n x) (q - n) Hx Hy ltac:(lia)). unfold fdiv. destruct (Req_EM_T _ 0); [lra|reflexivity]. }
      exists (fun i => match iterative_dcm n ko ki c x i with Fin a => a | _ => 0 end). split.
      - change (p_fun P x) with (real_vec (2 * n) (run_entry (Pos "iterative_dcm") (A5d n ko ki nzo nzi c) x)). rewrite ProofsEntries.e_iterative_dcm
          by (apply ProofsIEEE.dcm_pairs_ok; intros i Hi; destruct (Hx i Hi), (Hy i Hi); unfold shift in *; lra). unfold real_vec, all_fin.
        replace (forallb _ (seq 0 (2 * n))) with true; [reflexivity|]. symmetry. apply forallb_forall. intros q Hq. apply in_seq in Hq. rewrite F by lia. reflexivity.
      - intros q Hq. rewrite F by exact Hq. reflexivity. }
    assert (El : forall x dx old a b t, p_lin_fp P x dx old a b t = Some (linsearch_fun_DCM_fixed (2 * n) x dx old a b t)) by reflexivity.
    assert (Imo : forall x i, paired_with n xs x -> paired_with n (shift n xs) (shift n x) -> (i < n)%nat ->
      gval P x i = ko i / pull n (cw c) x (shift n x) i /\ (0 < xs i -> 0 < gval P x i) /\ (xs i = 0 -> gval P x i = 0)).
    { intros x i Hx Hy Hi. destruct (Ef x Hx Hy) as (f & E & F). assert (Q := d_pull_o x (shift n x) i Hx Hy Hi). unfold gval. rewrite E, F by lia. unfold img.
      apply Nat.ltb_lt in Hi. rewrite Hi. apply Nat.ltb_lt in Hi. split; [reflexivity|]. split; intros H.
      - destruct (Pro i Hi) as [[L _]|[_ Z]]; [|lra]. apply Rmult_lt_0_compat; [lra|apply Rinv_0_lt_compat; assumption].
      - destruct (Pro i Hi) as [[_ L]|[Z _]]; [lra|]. rewrite Z. unfold Rdiv. ring. }
    assert (Imi : forall x i, paired_with n xs x -> paired_with n (shift n xs) (shift n x) -> (i < n)%nat ->
      gval P x (i + n)%nat = ki i / pull n (cw c) (shift n x) x i /\ (0 < shift n xs i -> 0 < gval P x (i + n)%nat) /\ (shift n xs i = 0 -> gval P x (i + n)%nat = 0)).
    { intros x i Hx Hy Hi. destruct (Ef x Hx Hy) as (f & E & F). assert (Q := d_pull_i x (shift n x) i Hx Hy Hi). unfold gval. rewrite E, F by lia. unfold img.
      destruct (Nat.ltb_spec (i + n) n) as [|_]; [lia|]. replace (i + n - n)%nat with i by lia. split; [reflexivity|]. split; intros H.
      - destruct (Pri i Hi) as [[L _]|[_ Z]]; [|lra]. apply Rmult_lt_0_compat; [lra|apply Rinv_0_lt_compat; assumption].
      - destruct (Pri i Hi) as [[_ L]|[Z _]]; [lra|]. rewrite Z. unfold Rdiv. ring. }
    assert (Split : forall q, (q < 2 * n)%nat -> (q < n)%nat \/ exists i, (i < n)%nat /\ q = (i + n)%nat).
    { intros q Hq. destruct (lt_dec q n); [left; assumption|right; exists (q - n)%nat; lia]. }
    set (XX := fun t => X P search x0 t).
    assert (XS : forall t q, XX (S t) q = (1 - A P search x0 t) * XX t q + A P search x0 t * gval P (XX t) q) by (intros; apply X_S).
    assert (Step : forall t, paired_with n xs (XX t) -> paired_with n (shift n xs) (shift n (XX t)) ->
      amin <= A P search x0 t <= 1 /\ paired_with n xs (XX (S t)) /\ paired_with n (shift n xs) (shift n (XX (S t)))).
    { intros t Hx Hy.
      assert (HA : amin <= A P search x0 t <= 1).
      { unfold A, aval. destruct search; [|assert (R := amin_range); lra]. rewrite El. apply norm_loop_range. apply clamp_gt_range.
        intros q Hq. fold (XX t). destruct (Split q Hq) as [Hi|(i & Hi & ->)].
        - destruct (Imo _ q Hx Hy Hi) as (_ & I1 & I2). destruct (Hx q Hi) as [[Q1 Q2]|[Q1 Q2]].
          + left. split; [exact Q2|]. specialize (I1 Q1). unfold XX in *. lra.
          + right. split; [exact Q2|]. rewrite (I2 Q1). unfold XX in *. rewrite Q2. ring.
        - destruct (Imi _ i Hx Hy Hi) as (_ & I1 & I2). destruct (Hy i Hi) as [[Q1 Q2]|[Q1 Q2]].
          + left. split; [exact Q2|]. specialize (I1 Q1). unfold shift, XX in *. lra.
          + right. split; [exact Q2|]. rewrite (I2 Q1). unfold shift, XX in *. rewrite Q2. ring. }
      split; [exact HA|]. assert (R := amin_range). split.
      - intros i Hi. rewrite XS. destruct (Imo _ i Hx Hy Hi) as (_ & I1 & I2). destruct (Hx i Hi) as [[Q1 Q2]|[Q1 Q2]].
        + left. split; [exact Q1|]. specialize (I1 Q1). nra.
        + right. split; [exact Q1|]. rewrite (I2 Q1), Q2. ring.
      - intros i Hi. change (shift n (XX (S t)) i) with (XX (S t) (i + n)%nat). rewrite XS. destruct (Imi _ i Hx Hy Hi) as (_ & I1 & I2). destruct (Hy i Hi) as [[Q1 Q2]|[Q1 Q2]].
        + left. split; [exact Q1|]. specialize (I1 Q1). unfold shift in *. nra.
        + right. split; [exact Q1|]. rewrite (I2 Q1). unfold shift in Q2. rewrite Q2. ring. }
    assert (Px : forall t, paired_with n xs (XX t) /\ paired_with n (shift n xs) (shift n (XX t))).
    { induction t as [|t [IH1 IH2]]; [|destruct (Step t IH1 IH2) as (_ & S1 & S2); auto]. unfold XX. rewrite X_0.
      split; [apply (pairs_full n ko xs x0 Pro)|apply (pairs_full n ki (shift n xs) (shift n x0) Pri)]; assumption. }
    assert (HT : forall t, fmove n c ko ki xs (shift n xs) amin (XX t) (shift n (XX t)) (XX (S t)) (shift n (XX (S t)))).
    { intros t. destruct (Px t) as [Hx Hy]. destruct (Px (S t)) as [Hx' Hy']. destruct (Step t Hx Hy) as [HA _].
      do 4 (split; [assumption|]). split; intros i Hi Q1.
      - rewrite XS. destruct (Imo _ i Hx Hy Hi) as (I2 & I3 & _). rewrite <- I2.
        apply damped_arith; [exact HA|apply amin_range| |auto]. destruct (Hx i Hi) as [[_ B]|[B _]]; lra.
      - change (shift n (XX (S t)) i) with (XX (S t) (i + n)%nat). rewrite XS. destruct (Imi _ i Hx Hy Hi) as (I2 & I3 & _). rewrite <- I2. change (shift n (XX t) i) with (XX t (i + n)%nat).
        apply damped_arith; [exact HA|apply amin_range| |auto]. destruct (Hy i Hi) as [[_ B]|[B _]]; [exact B|lra]. }
    destruct (G XX (fun t => shift n (XX t)) HT) as (K & l & PK & Pl & W). exists (both_blocks l). split; [apply both_blocks_solution; exact Pl|].
    assert (Wz : forall t q, (q < 2 * n)%nat -> within (1 + K * r ^ t) (XX t q) (both_blocks l q) /\ 0 <= XX t q /\ 0 <= both_blocks l q).
    { intros t q Hq. destruct (Px t) as [Hx Hy]. unfold both_blocks. destruct (Split q Hq) as [Hi|(i & Hi & ->)].
      - destruct (W t q Hi) as (W1 & _). assert (Hi' := Hi). apply Nat.ltb_lt in Hi'. rewrite Hi'. split; [exact W1|].
        destruct (Hx q Hi) as [[B1 B2]|[B1 B2]]; split; try lra; [apply Rmult_le_pos; lra|rewrite B1; lra].
      - destruct (W t i Hi) as (_ & W2 & _). destruct (Nat.ltb_spec (i + n) n); [lia|]. split; [exact W2|].
        assert (Il : 0 < / l) by (apply Rinv_0_lt_compat; assumption).
        destruct (Hy i Hi) as [[B1 B2]|[B1 B2]]; unfold shift in *; split; try lra; [apply Rmult_le_pos; lra|rewrite B1; unfold Rdiv; lra]. }
    exists d. split; [exact Ed|].
    assert (Nz : forall j, (j < 2 * n)%nat -> 0 <= both_blocks l j) by (intros j Hj; apply (Wz 0%nat j Hj)).
    set (U := (1 + K) * rsum (2 * n) (both_blocks l)).
    assert (I2 : forall t q, (q < 2 * n)%nat -> 0 <= XX t q <= U).
    { intros t q Hq. destruct (Wz t q Hq) as (W1 & N1 & N2). split; [exact N1|]. assert (Pt := pow_below r t Hr).
      apply Rle_trans with ((1 + K) * both_blocks l q); [apply (within_bound K (K * r ^ t)); [split; [apply Rmult_le_pos; lra|nra]|auto|exact W1]|].
      unfold U. apply Rmult_le_compat_l; [lra|]. apply rsum_ge_term; assumption. }
    assert (IX : forall t, inside n U (XX t)) by (intros t j Hj; apply I2; lia).
    assert (IY : forall t, inside n U (shift n (XX t))) by (intros t j Hj; apply I2; lia).
    assert (Sc : 0 <= rsum n c) by (apply rsum_nonneg; intros j Hj; assert (1 <= c j) by (apply HDo; exact Hj); lra).
    assert (U0 : 0 <= U) by (unfold U; apply Rmult_le_pos; [lra|apply rsum_nonneg; assumption]).
    assert (Ra := amin_range). assert (Ia : 0 < / amin) by (apply Rinv_0_lt_compat; lra).
    assert (Bp : 0 <= rsum n c * U) by (apply Rmult_le_pos; assumption).
    assert (Tf : forall t, p_fun P (X P search x0 t) <> None).
    { intros t. fold (XX t). destruct (Px t) as [Hx Hy]. destruct (Ef _ Hx Hy) as (f & E & _). rewrite E. discriminate. }
    split; [|destruct Hno as (h & Hh & Nh); assert (Ph : 0 < xs h) by (apply HFo; assumption); exists (/ (rsum n c * U + 1)); split; [apply Rinv_0_lt_compat; lra|];
      apply assemble_norms; [exact Tf|intros _ t old; fold P; rewrite El; discriminate|intros t; fold P; fold (XX t)]].
    2:{ apply Rle_trans with (2 := norm2_ge (2 * n) _ h ltac:(lia)). destruct (Px t) as [Hx Hy]. destruct (Imo _ h Hx Hy Hh) as (I1 & I3 & _). specialize (I3 Ph). rewrite Rabs_pos_eq by lra. rewrite I1.
        assert (Q := d_pull_o _ _ h Hx Hy Hh). destruct (pull_bound n c _ _ h U (proj1 HDo) Hh (IX t) (IY t)) as [_ Q2].
        destruct (Pro h Hh) as [[L _]|[_ Z]]; [|lra]. assert (Q3 : / (rsum n c * U + 1) <= / pull n (cw c) (XX t) (shift n (XX t)) h) by (apply Rinv_le_contravar; lra).
        assert (0 < / (rsum n c * U + 1)) by (apply Rinv_0_lt_compat; lra). unfold Rdiv. nra. }
    apply (assemble linsolve ok eigh fuel (2 * n) (A5d n ko ki nzo nzi c) d search x0 r (K * (2 + K)) (rsum n c * U * (2 + / amin)) (2 * K * rsum (2 * n) (both_blocks l))).
    - exact Hr.
    - nra.
    - apply Rmult_le_pos; lra.
    - apply Rmult_le_pos; [lra|]. apply rsum_nonneg. intros j Hj. apply (Wz 0%nat j Hj).
    - exact Tf.
    - intros _ t old. fold P. rewrite El. discriminate.
    - intros t. fold P. fold (XX t). assert (Pt := pow_below r t Hr). split.
      + intros q Hq. destruct (Wz t q Hq) as (W1 & N1 & N2).
        apply within_relative; try assumption; [apply Rmult_le_pos; nra|]. apply (within_mono (1 + K * r ^ t)); try assumption.
        assert (K * r ^ t <= K * (2 + K) * r ^ t) by (apply Rmult_le_compat_r; nra). lra.
      + intros i Hi. destruct (W t i Hi) as (_ & _ & W3 & W4). split; assumption.
    - intros e e' x. apply near_mono_dcm.
    - intros t i Hi. fold P. fold (XX t). fold (XX (S t)). set (d' := norm2 (2 * n) _).
      assert (Ap : forall q, (q < 2 * n)%nat -> Rabs (XX (S t) q - XX t q) <= d') by (intros q Hq; exact (norm2_ge (2 * n) (fun i => XX (S t) i - XX t i) q Hq)).
      assert (Ax : apart n d' (XX t) (XX (S t))) by (intros j Hj; apply Ap; lia).
      assert (Ay : apart n d' (shift n (XX t)) (shift n (XX (S t)))) by (intros j Hj; apply Ap; lia).
      destruct (Px t) as [Hx Hy]. destruct (Step t Hx Hy) as [HA _]. split.
      + apply (residual_linear n c (ko i) (XX t) (shift n (XX t)) _ _ (gval P (XX t) i)); try assumption; try apply IX; try apply IY.
        * apply HDo.
        * apply norm2_nonneg.
        * destruct (Pro i Hi) as [[L P0]|[Z E]].
          -- left. split; [apply d_pull_o; assumption|]. apply (Imo _ i Hx Hy Hi).
          -- right. split; [exact Z|]. destruct (Hx i Hi); lra.
        * apply (step_part amin (A P search x0 t)); [lra|lra|]. rewrite <- XS. apply (Ax i Hi).
      + apply (residual_linear n c (ki i) (shift n (XX t)) (XX t) _ _ (gval P (XX t) (i + n)%nat)); try assumption; try apply IX; try apply IY.
        * apply HDo.
        * apply norm2_nonneg.
        * destruct (Pri i Hi) as [[L P0]|[Z E]].
          -- left. split; [apply d_pull_i; assumption|]. apply (Imi _ i Hx Hy Hi).
          -- right. split; [exact Z|]. destruct (Hy i Hi); lra.
        * apply (step_part amin (A P search x0 t)); [lra|lra|]. change (shift n (XX t) i) with (XX t (i + n)%nat). rewrite <- XS. apply (Ay i Hi).
    - intros t. fold P. apply Rle_trans with (1 := norm2_abs _ _). apply Rle_trans with (rsum (2 * n) (fun i => 2 * (K * r ^ t) * both_blocks l i)).
      + apply rsum_le. intros i Hi. assert (Pt := pow_below r t Hr). assert (Pt' := pow_below r (S t) Hr).
        destruct (Wz t i Hi) as (W1 & N1 & N2). destruct (Wz (S t) i Hi) as (W1' & N1' & _).
        apply (close_diff (K * r ^ S t) (K * r ^ t)); try assumption.
        * apply Rmult_le_pos; lra.
        * apply Rmult_le_compat_l; [lra|]. cbn [pow]. nra.
      + rewrite rsum_scal_l. right. ring.
  Qed.
End DBCM2.

Section DBCMexp.
  Variables (n : nat) (c ko ki ths : nat -> R).
  Hypothesis Hn : (0 < n)%nat.
  Hypothesis Hc : forall i, (i < n)%nat -> 1 <= c i.
  Hypotheses (Hko : forall i, (i < n)%nat -> 1 <= ko i) (Hki : forall i, (i < n)%nat -> 1 <= ki i).
  Hypothesis HMo : forall i, (i < n)%nat -> class_mean n c (p_dbcm (expn ths) (shift n (expn ths))) i = ko i.
  Hypothesis HMi : forall i, (i < n)%nat -> class_mean n c (p_dbcm (shift n (expn ths)) (expn ths)) i = ki i.

  Definition shifted (l : R) (r : nat) : R := if Nat.ltb r n then ths r - ln l else ths r + ln l.
  Lemma shifted_exp l r : 0 < l -> expn (shifted l) r = both_blocks n (expn ths) l r.
  Proof.
    intros Pl. unfold expn, shifted, both_blocks. destruct (Nat.ltb r n).
    - replace (- (ths r - ln l)) with (ln l + - ths r) by ring. rewrite exp_plus, exp_ln by exact Pl. reflexivity.
    - replace (- (ths r + ln l)) with (- ths r + - ln l) by ring. rewrite exp_plus, (exp_Ropp (ln l)), exp_ln by exact Pl. reflexivity.
  Qed.
  Lemma dcm_exp_converges : exists r, 0 < r < 1 /\ forall linsolve ok eigh fuel reg search nzo nzi th0,
    exists z, dcm_solution n c ko ki (expn z) /\
    accepted d_dispatch "dcm_exp" "fixed-point" reg (run_converges linsolve ok eigh fuel (2 * n) (A5d n ko ki nzo nzi c) search th0 r
      (fun e th => (forall i, (i < 2 * n)%nat -> Rabs (th i - z i) <= e) /\ dcm_close n c ko ki e (expn th)) (fun e th => dcm_near n c ko ki e (expn th))).
  Proof.
    assert (HDo : class_degrees n c ko) by (split; [exact Hc|intros; right; auto]).
    assert (HDi : class_degrees n c ki) by (split; [exact Hc|intros; right; auto]).
    assert (Hno : nonempty n ko) by (exists 0%nat; split; [exact Hn|]; specialize (Hko 0%nat Hn); lra).
    assert (Hni : nonempty n ki) by (exists 0%nat; split; [exact Hn|]; specialize (Hki 0%nat Hn); lra).
    assert (HFo : cm_full n ko (expn ths)) by (intros i Hi; split; [intros _; apply exp_pos|]; specialize (Hko i Hi); intros; lra).
    assert (HFi : cm_full n ki (shift n (expn ths))) by (intros i Hi; split; [intros _; apply exp_pos|]; specialize (Hki i Hi); intros; lra).
    assert (Pp : forall th, paired_with n (expn ths) (expn th)) by (intros th i Hi; left; split; apply exp_pos).
    assert (Pp' : forall th, paired_with n (shift n (expn ths)) (shift n (expn th))) by (intros th i Hi; left; split; apply exp_pos).
    destruct (dcm_limit n c ko ki (expn ths) HDo HDi Hno Hni HFo HFi HMo HMi) as (r & Hr & G). exists r. split; [exact Hr|].
    intros linsolve ok eigh fuel reg search nzo nzi x0.
    set (d := match d_dispatch "dcm_exp" "fixed-point" reg with inl d => d | inr _ => {| d_fun := Nothing; d_jac := Nothing; d_step := Nothing; d_lins := ""; d_obj := ""; d_reg := "" |} end).
    assert (Ed : d_dispatch "dcm_exp" "fixed-point" reg = inl d) by reflexivity.
    set (P := run_problem eigh fuel (2 * n) d (A5d n ko ki nzo nzi c)).
    set (img := fun th r => if Nat.ltb r n then ko r / pull n (cw c) (expn th) (shift n (expn th)) r
      else ki (r - n)%nat / pull n (cw c) (shift n (expn th)) (expn th) (r - n)%nat).
    assert (Pim : forall th q, (q < 2 * n)%nat -> 0 < img th q).
    { intros th q Hq. unfold img. destruct (Nat.ltb_spec q n) as [Lq|Lq].
      - assert (Q := d_pull_o n c ko ki (expn ths) HDo HDi Hno HFo HFi HMo _ _ q (Pp th) (Pp' th) Lq). specialize (Hko q Lq).
        apply Rmult_lt_0_compat; [lra|apply Rinv_0_lt_compat; exact Q].
      - assert (Q := d_pull_i n c ko ki (expn ths) HDo HDi Hni HFo HFi HMi _ _ (q - n)%nat (Pp th) (Pp' th) ltac:(lia)). specialize (Hki (q - n)%nat ltac:(lia)).
        apply Rmult_lt_0_compat; [lra|apply Rinv_0_lt_compat; exact Q]. }
    assert (F : forall th q, (q < 2 * n)%nat -> iterative_dcm_exp n ko ki c (fun r => Some (th r)) q = Fin (- ln (img th q))).
    { intros th q Hq. assert (Pq := Pim th q Hq). unfold iterative_dcm_exp. cbv zeta. cbn [expneg]. fold (expn th). rewrite dcm_f_out_pull, dcm_f_in_pull.
      fold (shift n (expn th)). unfold img in *.
      destruct (Nat.ltb_spec q n) as [Lq|Lq].
      - assert (Q := d_pull_o n c ko ki (expn ths) HDo HDi Hno HFo HFi HMo _ _ q (Pp th) (Pp' th) Lq).
        unfold fdiv. destruct (Req_EM_T _ 0) as [Z|_]; [unfold expn, shift in *; lra|]. cbn [fneglog]. destruct (Rlt_dec 0 _) as [_|N]; [reflexivity|exfalso; apply N; exact Pq].
      - assert (Q := d_pull_i n c ko ki (expn ths) HDo HDi Hni HFo HFi HMi _ _ (q - n)%nat (Pp th) (Pp' th) ltac:(lia)).
        unfold fdiv. destruct (Req_EM_T _ 0) as [Z|_]; [unfold expn, shift in *; lra|]. cbn [fneglog]. destruct (Rlt_dec 0 _) as [_|N]; [reflexivity|exfalso; apply N; exact Pq]. }
    assert (Ef : forall th, exists f, p_fun P th = Some f /\ forall q, (q < 2 * n)%nat -> f q = - ln (img th q)).
    { intros th. exists (fun i => match iterative_dcm_exp n ko ki c (fun r => Some (th r)) i with Fin a => a | _ => 0 end). split.
      - change (p_fun P th) with (all_fin (2 * n) (iterative_dcm_exp n ko ki c (fun r => Some (th r)))). unfold all_fin.
        replace (forallb _ (seq 0 (2 * n))) with true; [reflexivity|]. symmetry. apply forallb_forall. intros q Hq. apply in_seq in Hq. rewrite F by lia. reflexivity.
      - intros q Hq. rewrite F by exact Hq. reflexivity. }
    assert (El : forall x dx old a b t, p_lin_fp P x dx old a b t = Some (linsearch_fun_DCM_exp_fixed (2 * n) dx old a b t)) by reflexivity.
    assert (Im : forall th q, (q < 2 * n)%nat -> exp (- gval P th q) = img th q).
    { intros th q Hq. destruct (Ef th) as (f & E & Fq). unfold gval. rewrite E, Fq by exact Hq. rewrite Ropp_involutive. apply exp_ln. auto. }
    assert (HA : forall t, amin <= A P search x0 t <= 1).
    { intros t. unfold A, aval. destruct search; [|assert (R := amin_range); lra]. rewrite El. apply norm_loop_range. lra. }
    set (XX := fun t => X P search x0 t).
    assert (XS : forall t q, XX (S t) q = (1 - A P search x0 t) * XX t q + A P search x0 t * gval P (XX t) q) by (intros; apply X_S).
    assert (HT : forall t, fmove n c ko ki (expn ths) (shift n (expn ths)) amin (expn (XX t)) (shift n (expn (XX t))) (expn (XX (S t))) (shift n (expn (XX (S t))))).
    { intros t. do 4 (split; [auto|]). split; intros i Hi _.
      - change (expn (XX (S t)) i) with (exp (- XX (S t) i)). rewrite XS.
        replace (ko i / pull n (cw c) (expn (XX t)) (shift n (expn (XX t))) i) with (exp (- gval P (XX t) i)).
        + apply damped_geom; [apply HA|apply amin_range].
        + rewrite Im by lia. unfold img. apply Nat.ltb_lt in Hi. rewrite Hi. reflexivity.
      - change (shift n (expn (XX (S t))) i) with (exp (- XX (S t) (i + n)%nat)). change (shift n (expn (XX t)) i) with (exp (- XX t (i + n)%nat)). rewrite XS.
        replace (ki i / pull n (cw c) (shift n (expn (XX t))) (expn (XX t)) i) with (exp (- gval P (XX t) (i + n)%nat)).
        + apply damped_geom; [apply HA|apply amin_range].
        + rewrite Im by lia. unfold img. destruct (Nat.ltb_spec (i + n) n); [lia|]. replace (i + n - n)%nat with i by lia. reflexivity. }
    destruct (G (fun t => expn (XX t)) (fun t => shift n (expn (XX t))) HT) as (K & l & PK & Pl & W). exists (shifted l). split.
    { destruct (both_blocks_solution n c ko ki (expn ths) HFo HFi HMo HMi l Pl) as (_ & _ & S3).
      do 2 (split; [intros i Hi; split; [intros _; apply exp_pos|intros Z; specialize (Hko i Hi); specialize (Hki i Hi); lra]|]). intros i Hi. destruct (S3 i Hi) as [S4 S5]. rewrite <- S4, <- S5.
      unfold class_mean, p_dbcm, shift. split; apply rsum_ext; intros j Hj; rewrite !shifted_exp by exact Pl; reflexivity. }
    assert (Wz : forall t q, (q < 2 * n)%nat -> Rabs (XX t q - shifted l q) <= K * r ^ t).
    { intros t q Hq. assert (Pt := pow_below r t Hr). apply within_log; [apply Rmult_le_pos; lra|]. fold (expn (XX t) q). fold (expn (shifted l) q). rewrite shifted_exp by exact Pl.
      unfold both_blocks. destruct (Nat.ltb_spec q n) as [Lq|Lq].
      - apply (W t q Lq).
      - destruct (W t (q - n)%nat ltac:(lia)) as (_ & W2 & _). unfold shift in W2. replace (q - n + n)%nat with q in W2 by lia. exact W2. }
    exists d. split; [exact Ed|].
    assert (Sc : 0 <= rsum n c) by (apply rsum_nonneg; intros j Hj; specialize (Hc j Hj); lra).
    assert (Ra := amin_range). assert (Ia : 0 < / amin) by (apply Rinv_0_lt_compat; lra).
    apply (assemble linsolve ok eigh fuel (2 * n) (A5d n ko ki nzo nzi c) d search x0 r (K * (2 + K)) (rsum n c * (2 + / amin)) (2 * K * INR (2 * n))).
    - exact Hr.
    - nra.
    - apply Rmult_le_pos; lra.
    - apply Rmult_le_pos; [lra|]. apply pos_INR.
    - intros t. fold P. destruct (Ef (X P search x0 t)) as (f & E & _). rewrite E. discriminate.
    - intros _ t old. fold P. rewrite El. discriminate.
    - intros t. fold P. fold (XX t). assert (Pt := pow_below r t Hr). split.
      + intros q Hq. apply Rle_trans with (1 := Wz t q Hq). apply Rmult_le_compat_r; nra.
      + intros i Hi. destruct (W t i Hi) as (_ & _ & W3 & W4). split; assumption.
    - intros e e' x. apply near_mono_dcm.
    - intros t i Hi. fold P. fold (XX t). fold (XX (S t)). set (d' := norm2 (2 * n) _).
      assert (Ap : forall q, (q < 2 * n)%nat -> Rabs (XX (S t) q - XX t q) <= d') by (intros q Hq; exact (norm2_ge (2 * n) (fun i => XX (S t) i - XX t i) q Hq)).
      assert (Ax : apart n d' (XX t) (XX (S t))) by (intros j Hj; apply Ap; lia).
      assert (Ay : apart n d' (shift n (XX t)) (shift n (XX (S t)))) by (intros j Hj; apply Ap; lia).
      change (shift n (expn (XX (S t)))) with (expn (shift n (XX (S t)))). split.
      + apply (residual_exp n c (ko i) (XX t) (shift n (XX t)) _ _ (gval P (XX t) i)); try assumption.
        * apply norm2_nonneg.
        * assert (L := Hko i Hi). split; [lra|]. rewrite <- (HMo i Hi). apply mean_bound; try assumption; intros; left; apply exp_pos.
        * exact (d_pull_o n c ko ki (expn ths) HDo HDi Hno HFo HFi HMo _ _ i (Pp (XX t)) (Pp' (XX t)) Hi).
        * rewrite Im by lia. unfold img. assert (Hb := Hi). apply Nat.ltb_lt in Hb. rewrite Hb. reflexivity.
        * apply (step_part amin (A P search x0 t)); [apply HA|lra|]. rewrite <- XS. apply (Ax i Hi).
      + apply (residual_exp n c (ki i) (shift n (XX t)) (XX t) _ _ (gval P (XX t) (i + n)%nat)); try assumption.
        * apply norm2_nonneg.
        * assert (L := Hki i Hi). split; [lra|]. rewrite <- (HMi i Hi). apply mean_bound; try assumption; intros; left; apply exp_pos.
        * exact (d_pull_i n c ko ki (expn ths) HDo HDi Hni HFo HFi HMi _ _ i (Pp (XX t)) (Pp' (XX t)) Hi).
        * rewrite Im by lia. unfold img. destruct (Nat.ltb_spec (i + n) n); [lia|]. replace (i + n - n)%nat with i by lia. reflexivity.
        * apply (step_part amin (A P search x0 t)); [apply HA|lra|]. change (shift n (XX t) i) with (XX t (i + n)%nat). rewrite <- XS. apply (Ay i Hi).
    - intros t. fold P. fold (XX t). fold (XX (S t)). apply Rle_trans with (1 := norm2_abs _ _). apply Rle_trans with (rsum (2 * n) (fun i => 2 * (K * r ^ t))).
      + apply rsum_le. intros i Hi. assert (Pt := pow_below r t Hr).
        assert (W1 := Wz t i Hi). assert (W2 := Wz (S t) i Hi).
        assert (L : K * r ^ S t <= K * r ^ t) by (apply Rmult_le_compat_l; [lra|]; cbn [pow]; nra).
        replace (XX (S t) i - XX t i) with ((XX (S t) i - shifted l i) - (XX t i - shifted l i)) by ring.
        apply Rle_trans with (1 := Rabs_triang _ _). rewrite Rabs_Ropp. lra.
      + rewrite rsum_const. right. ring.
  Qed.
End DBCMexp.

(** * The theorems *)
Lemma cm_fixed_point n c k xs : class_degrees n c k -> nonempty n k -> cm_solution n c k xs ->
  exists r, 0 < r < 1 /\ forall linsolve ok eigh fuel reg search x0, cm_full n k x0 ->
    accepted u_dispatch "cm" "fixed-point" reg (fun D => run_converges linsolve ok eigh fuel n (A2 n k c) search x0 r
      (fun e x => (forall i, (i < n)%nat -> relatively e (x i) (xs i)) /\ cm_close n c k e x) (cm_near n c k) D /\
      exists tol, 0 < tol /\ norms_above linsolve ok eigh fuel n (A2 n k c) search x0 tol D).
Proof. intros H1 H2 [H3 H4]. exact (cm_converges n c k xs H1 H2 H3 H4). Qed.
Lemma cm_exp_fixed_point n c k ths : (0 < n)%nat -> (forall i, (i < n)%nat -> 1 <= c i /\ 1 <= k i) -> cm_solution n c k (expn ths) ->
  exists r, 0 < r < 1 /\ forall linsolve ok eigh fuel reg search th0,
    accepted u_dispatch "cm_exp" "fixed-point" reg (run_converges linsolve ok eigh fuel n (A2 n k c) search th0 r
      (fun e th => (forall i, (i < n)%nat -> Rabs (th i - ths i) <= e) /\ cm_close n c k e (expn th)) (fun e th => cm_near n c k e (expn th))).
Proof. intros H1 H2 [_ H4]. exact (cm_exp_converges n c k ths H1 (fun i Hi => proj1 (H2 i Hi)) (fun i Hi => proj2 (H2 i Hi)) H4). Qed.
Lemma dcm_fixed_point n c ko ki xs : class_degrees n c ko -> class_degrees n c ki -> nonempty n ko -> nonempty n ki -> dcm_solution n c ko ki xs ->
  exists r, 0 < r < 1 /\ forall linsolve ok eigh fuel reg search nzo nzi x0, cm_full n ko x0 -> cm_full n ki (shift n x0) ->
    exists z, dcm_solution n c ko ki z /\
    accepted d_dispatch "dcm" "fixed-point" reg (fun D => run_converges linsolve ok eigh fuel (2 * n) (A5d n ko ki nzo nzi c) search x0 r
      (fun e x => (forall i, (i < 2 * n)%nat -> relatively e (x i) (z i)) /\ dcm_close n c ko ki e x) (dcm_near n c ko ki) D /\
      exists tol, 0 < tol /\ norms_above linsolve ok eigh fuel (2 * n) (A5d n ko ki nzo nzi c) search x0 tol D).
Proof.
  intros H1 H2 H3 H4 (H5 & H6 & H7). exact (dcm_converges n c ko ki xs H1 H2 H3 H4 H5 H6 (fun i Hi => proj1 (H7 i Hi)) (fun i Hi => proj2 (H7 i Hi))).
Qed.
Lemma dcm_exp_fixed_point n c ko ki ths : (0 < n)%nat -> (forall i, (i < n)%nat -> 1 <= c i /\ 1 <= ko i /\ 1 <= ki i) -> dcm_solution n c ko ki (expn ths) ->
  exists r, 0 < r < 1 /\ forall linsolve ok eigh fuel reg search nzo nzi th0,
    exists z, dcm_solution n c ko ki (expn z) /\
    accepted d_dispatch "dcm_exp" "fixed-point" reg (run_converges linsolve ok eigh fuel (2 * n) (A5d n ko ki nzo nzi c) search th0 r
      (fun e th => (forall i, (i < 2 * n)%nat -> Rabs (th i - z i) <= e) /\ dcm_close n c ko ki e (expn th)) (fun e th => dcm_near n c ko ki e (expn th))).
Proof.
  intros H1 H2 (H5 & H6 & H7). apply (dcm_exp_converges n c ko ki ths H1); intros i Hi; destruct (H2 i Hi) as (? & ? & ?); try assumption; apply (H7 i Hi).
Qed.
