(** Runs that are bound to reach their tolerance. *)
From Coq Require Import Reals List Arith Bool String Lia Lra.
From Coquelicot Require Import Coquelicot.
From Verif Require Import Base ProofsIEEE SpecLinsearch ModelDCM ModelCReMa ModelLinsearch ModelSolver ModelDispatch ModelRun SpecRun SpecReach
  ProofsRegular ProofsLinsearch ProofsMainLinsearch ProofsSolver ProofsSpectral ProofsRun ProofsIterates ProofsAscent.
Import ListNotations.
Local Open Scope R_scope.

(** ** Quadratic forms *)
Lemma scalar_nonneg m v : 0 <= scalar m v v.
Proof. unfold scalar. apply rsum_nonneg; intros; apply Rle_0_sqr. Qed.
Lemma scalar_sym m u v : scalar m u v = scalar m v u.
Proof. unfold scalar. apply rsum_ext; intros; ring. Qed.
Lemma apply_sym m B u v : symmetric m B -> scalar m u (apply_mat m B v) = scalar m v (apply_mat m B u).
Proof.
  intros HB. unfold scalar, apply_mat.
  rewrite (rsum_ext m _ (fun i => rsum m (fun j => u i * B i j * v j))) by (intros i _; rewrite <- rsum_scal_l; apply rsum_ext; intros; ring).
  rewrite rsum_swap. apply rsum_ext. intros j Hj. rewrite <- rsum_scal_l. apply rsum_ext. intros i Hi. rewrite (HB i j Hi Hj). ring.
Qed.
Lemma qform_minus m B d u t : symmetric m B ->
  qform m B (fun i => d i - t * u i) = qform m B d - 2 * t * scalar m u (apply_mat m B d) + t * t * qform m B u.
Proof.
  intros HB. rewrite !qform_apply.
  assert (E : forall i, apply_mat m B (fun j => d j - t * u j) i = apply_mat m B d i - t * apply_mat m B u i).
  { intros i. unfold apply_mat. rewrite <- rsum_scal_l, <- rsum_minus. apply rsum_ext; intros; ring. }
  assert (E2 : scalar m (fun i => d i - t * u i) (apply_mat m B (fun j => d j - t * u j)) =
    scalar m d (apply_mat m B d) - t * scalar m d (apply_mat m B u) - t * scalar m u (apply_mat m B d) + t * t * scalar m u (apply_mat m B u)).
  { unfold scalar. rewrite <- !rsum_scal_l, <- !rsum_minus, <- rsum_plus. apply rsum_ext. intros i _. rewrite E. ring. }
  rewrite E2, (apply_sym m B d u HB). ring.
Qed.
(** The image of a vector under a matrix between [0] and [Lam]. *)
Lemma image_bound m B d Lam : symmetric m B -> 0 < Lam -> (forall v, 0 <= qform m B v) -> (forall v, qform m B v <= Lam * scalar m v v) ->
  scalar m (apply_mat m B d) (apply_mat m B d) <= Lam * qform m B d.
Proof.
  intros HB HL H0 H1. set (u := apply_mat m B d).
  pose proof (H0 (fun i => d i - / Lam * u i)) as H. rewrite (qform_minus m B d u (/ Lam) HB) in H. fold u in H.
  pose proof (H1 u) as Hu.
  assert (Hi : 0 < / Lam) by (apply Rinv_0_lt_compat; exact HL).
  assert (/ Lam * / Lam * qform m B u <= / Lam * scalar m u u).
  { replace (/ Lam * scalar m u u) with (/ Lam * / Lam * (Lam * scalar m u u)) by (field; lra).
    apply Rmult_le_compat_l; [|exact Hu]. left. apply Rmult_lt_0_compat; exact Hi. }
  apply Rmult_le_reg_l with (/ Lam); [exact Hi|]. replace (/ Lam * (Lam * qform m B d)) with (qform m B d) by (field; lra). lra.
Qed.
Lemma eigen_qform_le eigh m b e K : eigen_decomposition m (symmetrise b) (fst (eigh (symmetrise b))) (snd (eigh (symmetrise b))) ->
  e <= K -> (forall v, qform m b v <= K * scalar m v v) ->
  forall v, qform m (matrix_regulariser_function_eigen_based eigh m b e) v <= K * scalar m v v.
Proof.
  intros H He Hb v. set (t := fst (eigh (symmetrise b))) in *. set (ev := snd (eigh (symmetrise b))) in *.
  assert (HT : forall p, (p < m)%nat -> t p <= K).
  { intros p Hp. specialize (Hb (fun i => ev i p)). rewrite <- qform_sym in Hb.
    rewrite (spectral_qform eigh m b t _ _ (proj2 (proj2 H))) in Hb.
    rewrite (rsum_ext m _ (fun q => if Nat.eqb q p then t q else 0)) in Hb.
    - rewrite (rsum_single m p t Hp) in Hb. unfold scalar in Hb. rewrite (proj1 H p p Hp Hp), Nat.eqb_refl in Hb. lra.
    - intros q Hq. fold ev. rewrite (proj1 H q p Hq Hp). destruct (Nat.eqb q p); ring. }
  rewrite (spectral_qform eigh m b (fun p => (if Rlt_dec e (t p) then 0 else e - t p) + t p) _ v (eigen_entry eigh m b e)).
  rewrite <- (parseval eigh m b H v), <- rsum_scal_l. apply rsum_le. intros p Hp. fold ev.
  apply Rmult_le_compat_r; [apply Rle_0_sqr|]. specialize (HT p Hp). destruct (Rlt_dec e (t p)); lra.
Qed.
Lemma eigen_qform_ge eigh m b e : eigen_decomposition m (symmetrise b) (fst (eigh (symmetrise b))) (snd (eigh (symmetrise b))) ->
  forall v, qform m b v <= qform m (matrix_regulariser_function_eigen_based eigh m b e) v.
Proof.
  intros H v. set (t := fst (eigh (symmetrise b))) in *. set (ev := snd (eigh (symmetrise b))) in *.
  rewrite <- qform_sym. rewrite (spectral_qform eigh m b t _ _ (proj2 (proj2 H))).
  rewrite (spectral_qform eigh m b (fun p => (if Rlt_dec e (t p) then 0 else e - t p) + t p) _ v (eigen_entry eigh m b e)).
  apply rsum_le. intros p Hp. fold ev. apply Rmult_le_compat_r; [apply Rle_0_sqr|]. destruct (Rlt_dec e (t p)); lra.
Qed.
Lemma norm2_sq m f : norm2 m f * norm2 m f = scalar m f f.
Proof. rewrite norm2_scalar. apply sqrt_sqrt. apply scalar_nonneg. Qed.
Lemma norm2_pos m f : 0 <= norm2 m f.
Proof. apply sqrt_pos. Qed.

(** A step along a direction is at most the square root of the number of parameters over
    the regularisation. *)
Lemma step_length m f dx e r : (0 < m)%nat -> 0 < e -> 0 < r -> largest m f e -> e * r * scalar m dx dx <= - scalar m f dx ->
  forall i, (i < m)%nat -> Rabs (dx i) <= sqrt (INR m) / r.
Proof.
  intros Hm He Hr Hl Hd i Hi. set (D := scalar m dx dx) in *.
  assert (Hm' : 0 < INR m) by (apply lt_0_INR; exact Hm).
  assert (HD0 : 0 <= D) by apply scalar_nonneg.
  assert (Hdi : dx i * dx i <= D).
  { unfold D, scalar. rewrite (rsum_pull m i) by exact Hi. match goal with |- ?a <= ?a + ?b => assert (0 <= b); [|lra] end.
    apply rsum_nonneg. intros j _. destruct (Nat.eqb j i); [lra|apply Rle_0_sqr]. }
  assert (Hff : scalar m f f <= INR m * (e * e)).
  { unfold scalar. rewrite <- rsum_const. apply rsum_le. intros j Hj. destruct Hl as [Hl _]. specialize (Hl j Hj).
    replace (f j * f j) with (Rabs (f j) * Rabs (f j)) by (unfold Rabs; destruct (Rcase_abs (f j)); ring).
    apply Rmult_le_compat; try apply Rabs_pos; exact Hl. }
  assert (HDle : D * (r * r) <= INR m).
  { destruct (Req_dec D 0) as [->|HDn]; [lra|]. assert (HDp : 0 < D) by lra.
    pose proof (cauchy m f dx) as C. unfold Rsqr in C. fold D in C.
    assert (Hpos : 0 <= e * r * D) by (apply Rmult_le_pos; [apply Rmult_le_pos|]; lra).
    assert (C1 : e * r * D * (e * r * D) <= - scalar m f dx * - scalar m f dx) by (apply Rmult_le_compat; assumption).
    assert (C2 : scalar m f f * D <= INR m * (e * e) * D) by (apply Rmult_le_compat_r; assumption).
    assert (Hk : 0 < e * e * D) by (apply Rmult_lt_0_compat; [apply Rmult_lt_0_compat; exact He|exact HDp]).
    apply Rmult_le_reg_l with (e * e * D); [exact Hk|].
    replace (e * e * D * (D * (r * r))) with (e * r * D * (e * r * D)) by ring. replace (e * e * D * INR m) with (INR m * (e * e) * D) by ring. lra. }
  apply Rsqr_incr_0_var; [|apply Rmult_le_pos; [apply sqrt_pos|left; apply Rinv_0_lt_compat; exact Hr]].
  rewrite <- Rsqr_abs. unfold Rsqr. replace (sqrt (INR m) / r * (sqrt (INR m) / r)) with (sqrt (INR m) * sqrt (INR m) / (r * r)) by (field; lra).
  rewrite sqrt_sqrt by lra. apply Rmult_le_reg_r with (r * r); [apply Rmult_lt_0_compat; exact Hr|].
  replace (INR m / (r * r) * (r * r)) with (INR m) by (field; lra). apply Rle_trans with (D * (r * r)); [|exact HDle].
  apply Rmult_le_compat_r; [left; apply Rmult_lt_0_compat; exact Hr|exact Hdi].
Qed.

Section Reach.
  Variables (linsolve : (nat -> nat -> R) -> (nat -> R) -> option (nat -> R)) (ok : (nat -> nat -> R) -> bool)
    (eigh : (nat -> nat -> R) -> (nat -> R) * (nat -> nat -> R)) (m : nat)
    (P : problem (nat -> R) (nat -> nat -> R) R) (O : options R) (L : (nat -> R) -> R) (Q : (nat -> R) -> (nat -> R) -> R) (W U : R) (x0 : nat -> R).
  Local Notation N := (run_numerics linsolve ok m).
  Hypothesis HL : linear_solver m linsolve.
  Hypothesis HD : solves_definite m linsolve.
  Hypothesis HE : eigen_solver m eigh.
  Hypothesis Hm : (0 < m)%nat.
  Hypothesis HM : o_method O = Newton \/ o_method O = QuasiNewton.
  Hypothesis HS : o_linsearch O = true.
  Hypothesis HR : o_regularise O = true.
  Hypothesis He : 0 < o_regularise_eps O.
  Hypothesis HW : 0 < W.
  Hypothesis HA : ample m W (U - L x0) O.
  Hypothesis HU : forall z, L z <= U.
  Hypothesis Hfun : forall x, exists f, p_fun P x = Some f /\ (forall i, (i < m)%nat -> Rabs (f i) <= W) /\
    forall dx a, 0 <= a -> (forall i, (i < m)%nat -> a * Rabs (dx i) <= / 4) -> L x - a * scalar m f dx - a * a * Q x dx <= L (moved x a dx).
  Hypothesis Hsearch : forall x dx f, p_lin_nq P x dx (/ 2) 1 f = Some (decrease_loop m (fun z => Fin (L z)) x dx (/ 2) 1 f).
  Hypothesis Hnewton : o_method O = Newton -> forall x, exists H, p_jac_m P x = Some H /\ (forall v, qform m H v <= W * scalar m v v) /\
    forall v, Q x v <= 2 * qform m H v.
  Hypothesis Hreg : o_method O = Newton ->
    (forall H e, p_reg P H e = Some (matrix_regulariser_function_eigen_based eigh m H e)) \/
    (forall H e, p_reg P H e = Some (matrix_regulariser_function H e)) /\ (forall x H, p_jac_m P x = Some H -> forall v, 0 <= qform m H v).
  Hypothesis Hquasi : o_method O = QuasiNewton -> forall x, exists h, p_jac_v P x = Some h /\ (forall i, (i < m)%nat -> h i <= W) /\
    forall v, Q x v <= 2 * rsum m (fun i => h i * (v i * v i)).

  Let mu := o_tol O / sqrt (INR m) * o_regularise_eps O.
  Let Lam := most_curvature W O.
  Lemma reach_tol : 0 < o_tol O. Proof. apply HA. Qed.
  Lemma reach_mu : 0 < mu.
  Proof.
    unfold mu, Rdiv. apply Rmult_lt_0_compat; [|exact He]. apply Rmult_lt_0_compat; [exact reach_tol|].
    apply Rinv_0_lt_compat. apply sqrt_lt_R0. apply lt_0_INR. exact Hm.
  Qed.
  Lemma reach_Lam : 0 < Lam.
  Proof. unfold Lam, most_curvature. apply Rmult_lt_0_compat; lra. Qed.
  Lemma largest_le f e : largest m f e -> (forall i, (i < m)%nat -> Rabs (f i) <= W) -> e <= W.
  Proof. intros [_ (i & Hi & ->)] H. apply H. exact Hi. Qed.
  Lemma W_le_Lam : W <= Lam.
  Proof. unfold Lam, most_curvature. assert (0 < W * o_regularise_eps O) by (apply Rmult_lt_0_compat; assumption). lra. Qed.
  Lemma eps_le_Lam e : e <= W -> e * o_regularise_eps O <= W * o_regularise_eps O.
  Proof. intros H. apply Rmult_le_compat_r; lra. Qed.
  Lemma between_curvature f e : largest m f e -> o_tol O < norm2 m f -> mu <= e * o_regularise_eps O.
  Proof. intros Hl Hn. exact (floor_le m O f e Hm He Hl Hn). Qed.

  (** The matrix of a step. *)
  Lemma step_matrix f e H : o_method O = Newton -> largest m f e -> (forall i, (i < m)%nat -> Rabs (f i) <= W) ->
    (exists x, p_jac_m P x = Some H) ->
    exists B, p_reg P H (e * o_regularise_eps O) = Some B /\ symmetric m B /\
      (forall v, e * o_regularise_eps O * scalar m v v <= qform m B v) /\ (forall v, qform m B v <= Lam * scalar m v v) /\
      (forall v, qform m H v <= qform m B v).
  Proof.
    intros HN Hl Hf [x Hx]. pose proof (eps_le_Lam e (largest_le f e Hl Hf)) as Hee.
    assert (HH : forall v, qform m H v <= W * scalar m v v).
    { destruct (Hnewton HN x) as (H' & E & Hv & _). rewrite Hx in E. inversion E; subst H'. exact Hv. }
    assert (He0 : 0 <= e) by (destruct Hl as [_ (i & _ & ->)]; apply Rabs_pos).
    assert (HLam : Lam = W + W * o_regularise_eps O) by (unfold Lam, most_curvature; ring).
    destruct (Hreg HN) as [Er|[Er Hp]].
    - exists (matrix_regulariser_function_eigen_based eigh m H (e * o_regularise_eps O)). split; [apply Er|].
      assert (Hdec : eigen_decomposition m (symmetrise H) (fst (eigh (symmetrise H))) (snd (eigh (symmetrise H)))).
      { apply HE. intros i j _ _. unfold symmetrise. ring. }
      split; [apply eigen_sym|]. split; [intros v; apply eigen_qform; exact Hdec|]. split.
      + apply (eigen_qform_le eigh m H _ Lam Hdec); [lra|]. intros v. apply Rle_trans with (1 := HH v).
        apply Rmult_le_compat_r; [apply scalar_nonneg|apply W_le_Lam].
      + apply eigen_qform_ge. exact Hdec.
    - exists (matrix_regulariser_function H (e * o_regularise_eps O)). split; [apply Er|].
      destruct (regulariser_spec m H (e * o_regularise_eps O)) as [Hs Hq]. split; [exact Hs|]. split; [|split]; intros v; rewrite Hq; pose proof (scalar_nonneg m v).
      + pose proof (Hp x H Hx v). lra.
      + specialize (HH v). rewrite HLam.
        assert (e * o_regularise_eps O * scalar m v v <= W * o_regularise_eps O * scalar m v v) by (apply Rmult_le_compat_r; assumption). lra.
      + assert (0 <= e * o_regularise_eps O * scalar m v v) by (apply Rmult_le_pos; [apply Rmult_le_pos; lra|assumption]). lra.
  Qed.

  Definition good_direction (x f dx : nat -> R) : Prop :=
    mu * scalar m dx dx <= - scalar m f dx /\ scalar m f f <= Lam * - scalar m f dx /\ - scalar m f dx <= Lam * scalar m dx dx /\
    Q x dx <= 2 * - scalar m f dx /\ (forall i, (i < m)%nat -> Rabs (dx i) <= sqrt (INR m) / o_regularise_eps O).
  Lemma matrix_direction B H x f dx e : symmetric m B -> largest m f e -> mu <= e * o_regularise_eps O ->
    (forall v, e * o_regularise_eps O * scalar m v v <= qform m B v) -> (forall v, qform m B v <= Lam * scalar m v v) ->
    (forall v, qform m H v <= qform m B v) -> (forall v, Q x v <= 2 * qform m H v) ->
    (forall i, (i < m)%nat -> apply_mat m B dx i = - f i) -> good_direction x f dx.
  Proof.
    intros HB Hl Hmu H1 H2 H3 H4 HA'.
    assert (Eq : qform m B dx = - scalar m f dx).
    { rewrite qform_apply. unfold scalar. rewrite <- rsum_opp. apply rsum_ext. intros j Hj. rewrite (HA' j Hj). ring. }
    assert (Ef : scalar m (apply_mat m B dx) (apply_mat m B dx) = scalar m f f).
    { unfold scalar. apply rsum_ext. intros j Hj. rewrite (HA' j Hj). ring. }
    assert (Hb : forall v, mu * scalar m v v <= qform m B v).
    { intros v. apply Rle_trans with (2 := H1 v). apply Rmult_le_compat_r; [apply scalar_nonneg|exact Hmu]. }
    split; [rewrite <- Eq; apply Hb|]. split; [rewrite <- Eq, <- Ef|split; [rewrite <- Eq; apply H2|split]].
    - apply image_bound; [exact HB|exact reach_Lam| |exact H2].
      intros v. apply Rle_trans with (mu * scalar m v v); [|apply Hb]. apply Rmult_le_pos; [left; exact reach_mu|apply scalar_nonneg].
    - rewrite <- Eq. specialize (H3 dx). specialize (H4 dx). lra.
    - apply (step_length m f dx e); [exact Hm| |exact He|exact Hl|rewrite <- Eq; apply H1].
      pose proof reach_mu. apply Rmult_lt_reg_r with (o_regularise_eps O); [exact He|]. lra.
  Qed.

  Lemma direction_exists s : p_fun P (s_x s) = Some (s_f s) -> o_tol O < norm2 m (s_f s) ->
    exists dx, solver_dx N P O s = Some dx /\ good_direction (s_x s) (s_f s) dx.
  Proof.
    intros Hf Hn. set (f := s_f s) in *. destruct (Hfun (s_x s)) as (f' & Ef & Hb & _). rewrite Hf in Ef. inversion Ef; subst f'. clear Ef.
    pose proof (vmaxabs_largest linsolve ok m f Hm) as Hl. set (e := vmaxabs N f) in *.
    destruct HA as (_ & Hv & _). unfold solver_dx. destruct HM as [HN|HQ].
    - rewrite HN. destruct (Hnewton HN (s_x s)) as (H & EH & _ & HQ). rewrite EH. cbn [sbind]. rewrite Hv. cbn [andb]. rewrite HR, Hf. cbn [sbind].
      destruct (step_matrix f e H HN Hl Hb ltac:(exists (s_x s); exact EH)) as (B & EB & HBs & HB1 & HB2 & HB3).
      pose proof (between_curvature f e Hl Hn) as Hmu.
      change (smul N (vmaxabs N f) (o_regularise_eps O)) with (e * o_regularise_eps O). rewrite EB. cbn [sbind].
      destruct (HD B (ModelSolver.vneg N f) HBs) as [d Ed].
      { intros w Hw. pose proof reach_mu. apply Rlt_le_trans with (e * o_regularise_eps O * scalar m w w); [|apply HB1]. apply Rmult_lt_0_compat; [lra|apply scalar_pos; exact Hw]. }
      exists d. cbn [lsolve run_numerics] in *. fold f. split; [exact Ed|]. apply (matrix_direction B H (s_x s) f d e HBs Hl Hmu HB1 HB2 HB3 HQ). intros i Hi.
      rewrite (HL _ _ _ Ed i Hi). reflexivity.
    - destruct (Hquasi HQ (s_x s)) as (h & Eh & Hh & HQh).
      set (b := fun i => Rmax (h i) (h i * 0 + e * o_regularise_eps O)).
      pose proof (between_curvature f e Hl Hn) as Hmu. pose proof (eps_le_Lam e (largest_le f e Hl Hb)) as Hee. pose proof reach_mu as Hmu0.
      assert (Hbi : forall i, (i < m)%nat -> mu <= b i <= Lam).
      { intros i Hi. unfold b. rewrite Rmult_0_r, Rplus_0_l. split; [apply Rle_trans with (1 := Hmu); apply Rmax_r|].
        apply Rmax_lub; [apply Rle_trans with (1 := Hh i Hi); apply W_le_Lam|]. unfold Lam, most_curvature. lra. }
      exists (fun i => - f i / b i). split.
      { refine (proj1 (quasi_exists linsolve ok m P O s h HQ HR He Hf _ Eh)). fold f. pose proof (proj1 HA). lra. }
      change (good_direction (s_x s) f (fun i => - f i / b i)).
      assert (Hbh : forall i, (i < m)%nat -> h i <= b i /\ e * o_regularise_eps O <= b i).
      { intros i Hi. unfold b. rewrite Rmult_0_r, Rplus_0_l. split; [apply Rmax_l|apply Rmax_r]. }
      assert (E1 : forall i, (i < m)%nat -> - (f i * (- f i / b i)) = b i * ((- f i / b i) * (- f i / b i))).
      { intros i Hi. specialize (Hbi i Hi). field. lra. }
      assert (G4 : Q (s_x s) (fun i => - f i / b i) <= 2 * - scalar m f (fun i => - f i / b i)).
      { apply Rle_trans with (1 := HQh _). apply Rmult_le_compat_l; [lra|]. unfold scalar. rewrite <- rsum_opp. apply rsum_le. intros i Hi.
        rewrite E1 by exact Hi. apply Rmult_le_compat_r; [apply Rle_0_sqr|apply Hbh; exact Hi]. }
      assert (G5 : forall i, (i < m)%nat -> Rabs (- f i / b i) <= sqrt (INR m) / o_regularise_eps O).
      { apply (step_length m f (fun i => - f i / b i) e); [exact Hm| |exact He|exact Hl|].
        - apply Rmult_lt_reg_r with (o_regularise_eps O); [exact He|]. lra.
        - unfold scalar. rewrite <- rsum_opp, <- rsum_scal_l. apply rsum_le. intros i Hi. rewrite E1 by exact Hi. apply Rmult_le_compat_r; [apply Rle_0_sqr|apply Hbh; exact Hi]. }
      unfold good_direction. split; [|split; [|split; [|split; [exact G4|exact G5]]]]; unfold scalar; rewrite <- ?rsum_opp, <- ?rsum_scal_l.
      + apply rsum_le. intros i Hi. rewrite E1 by exact Hi. apply Rmult_le_compat_r; [apply Rle_0_sqr|apply Hbi; exact Hi].
      + apply rsum_le. intros i Hi. specialize (Hbi i Hi). replace (Lam * - (f i * (- f i / b i))) with (Lam * / b i * (f i * f i)) by (field; lra).
        rewrite <- (Rmult_1_l (f i * f i)) at 1. apply Rmult_le_compat_r; [apply Rle_0_sqr|].
        apply Rmult_le_reg_r with (b i); [lra|]. rewrite Rmult_assoc, Rinv_l by lra. lra.
      + apply rsum_le. intros i Hi. rewrite E1 by exact Hi. apply Rmult_le_compat_r; [apply Rle_0_sqr|apply Hbi; exact Hi].
  Qed.

  (** The line search always accepts, and not too short a step. *)
  Lemma search_accepts x f dx : p_fun P x = Some f -> good_direction x f dx -> 0 < scalar m dx dx ->
    let a := decrease_loop m (fun z => Fin (L z)) x dx (/ 2) 1 f in
    least_alfa m O <= a <= 1 /\ L x - / 10000 * a * scalar m f dx < L (moved x a dx).
  Proof.
    intros Hf (G1 & _ & _ & G4 & G5) Hd. destruct (Hfun x) as (f' & Ef & _ & Hs). rewrite Hf in Ef. inversion Ef; subst f'. clear Ef.
    pose proof reach_mu as Hmu. destruct HA as (_ & _ & _ & Hhalf & _).
    assert (Hsq : 0 < sqrt (INR m)) by (apply sqrt_lt_R0; apply lt_0_INR; exact Hm).
    set (r := o_regularise_eps O) in *.
    assert (Hq : 0 < - scalar m f dx).
    { apply Rlt_le_trans with (2 := G1). apply Rmult_lt_0_compat; assumption. }
    assert (Acc : forall b, 0 < b -> b <= / 4 -> b * (4 * sqrt (INR m)) <= r -> sufficient_decrease_condition m (fopp (Fin (L x))) (fopp (Fin (L (moved x b dx)))) b f dx = true).
    { intros b Hb H4 Hle. apply (armijo_iff m (fun z => Fin (L z)) x dx f b). unfold armijo.
      apply Rlt_le_trans with (L x - b * scalar m f dx - b * b * Q x dx).
      - assert (b * b * Q x dx <= b * / 2 * - scalar m f dx).
        { apply Rle_trans with (b * b * (2 * - scalar m f dx)); [apply Rmult_le_compat_l; [left; apply Rmult_lt_0_compat; exact Hb|exact G4]|].
          replace (b * b * (2 * - scalar m f dx)) with (b * (2 * b) * - scalar m f dx) by ring.
          apply Rmult_le_compat_r; [lra|]. apply Rmult_le_compat_l; lra. }
        assert (0 < b * - scalar m f dx) by (apply Rmult_lt_0_compat; assumption). lra.
      - apply Hs; [lra|]. intros i Hi. specialize (G5 i Hi).
        apply Rle_trans with (b * (sqrt (INR m) / r)); [apply Rmult_le_compat_l; [lra|exact G5]|].
        apply Rmult_le_reg_r with r; [exact He|]. replace (b * (sqrt (INR m) / r) * r) with (b * sqrt (INR m)) by (field; lra). lra. }
    intros a. destruct (decrease_loop_shape m (fun z => Fin (L z)) x dx (/ 2) 1 f) as (j & Hj & Ea & Hrej & Hacc). fold a in Ea. rewrite Rmult_1_l in Ea.
    pose proof (half_pow_unit j) as [P1 P2].
    assert (Hge : least_alfa m O <= a).
    { unfold least_alfa. fold r. pose proof (Rmin_l (/ 8) (r / (8 * sqrt (INR m)))) as M1. pose proof (Rmin_r (/ 8) (r / (8 * sqrt (INR m)))) as M2.
      destruct j as [|j]; [rewrite Ea; cbn [pow]; lra|]. pose proof (half_pow_unit j) as [Q1 Q2].
      destruct (Rle_lt_dec ((/ 2) ^ j) (/ 4)) as [H4|H4]; [|rewrite Ea; cbn [pow]; lra].
      destruct (Rle_lt_dec ((/ 2) ^ j * (4 * sqrt (INR m))) r) as [Hle|Hgt].
      - specialize (Hrej j ltac:(lia)). rewrite Rmult_1_l in Hrej. rewrite (Acc _ Q1 H4 Hle) in Hrej. discriminate.
      - apply Rle_trans with (1 := M2). rewrite Ea. cbn [pow]. apply Rmult_le_reg_r with (8 * sqrt (INR m)); [lra|].
        replace (r / (8 * sqrt (INR m)) * (8 * sqrt (INR m))) with r by (field; lra). lra. }
    split; [split; [exact Hge|rewrite Ea; exact P2]|].
    assert (Hok : sufficient_decrease_condition m (fopp (Fin (L x))) (fopp (Fin (L (moved x ((/ 2) ^ j) dx)))) ((/ 2) ^ j) f dx = true).
    { destruct Hacc as [->|Hacc]; [|rewrite Rmult_1_l in Hacc; exact Hacc].
      assert (E48 : (/ 2) ^ 48 * 2 ^ 48 = 1) by (rewrite <- Rpow_mult_distr, Rinv_l by lra; apply pow1).
      assert (E50 : (/ 2) ^ 50 = / 4 * (/ 2) ^ 48) by (cbn [pow]; field).
      pose proof (half_pow_unit 48) as [R1 R2].
      apply Acc; [apply P1|rewrite E50; lra|].
      assert ((/ 2) ^ 48 * sqrt (INR m) < (/ 2) ^ 48 * (2 ^ 48 * r)) by (apply Rmult_lt_compat_l; [exact R1|exact Hhalf]).
      rewrite <- Rmult_assoc, E48, Rmult_1_l in H. rewrite E50. lra. }
    rewrite Ea. exact (proj1 (armijo_iff m (fun z => Fin (L z)) x dx f ((/ 2) ^ j)) Hok).
  Qed.

  Lemma least_alfa_pos : 0 < least_alfa m O.
  Proof.
    unfold least_alfa. apply Rmin_glb_lt; [lra|]. apply Rdiv_lt_0_compat; [exact He|]. apply Rmult_lt_0_compat; [lra|]. apply sqrt_lt_R0, lt_0_INR, Hm.
  Qed.

  Lemma good_progress x f dx : p_fun P x = Some f -> o_tol O < norm2 m f -> good_direction x f dx ->
    let a := decrease_loop m (fun z => Fin (L z)) x dx (/ 2) 1 f in
    least_rise m W O < L (moved x a dx) - L x /\ least_move m W O < norm2 m (fun i => moved x a dx i - x i).
  Proof.
    intros Hf Hn Hg. pose proof reach_tol as Ht. pose proof reach_Lam as HLam. pose proof least_alfa_pos as Hla.
    assert (Hff : o_tol O * o_tol O < scalar m f f) by (rewrite <- norm2_sq; apply Rmult_le_0_lt_compat; lra).
    pose proof Hg as Hg'. destruct Hg as (G1 & G2 & G3 & _ & _).
    assert (Hsl : o_tol O * o_tol O / Lam < - scalar m f dx).
    { apply Rmult_lt_reg_l with Lam; [exact HLam|]. replace (Lam * (o_tol O * o_tol O / Lam)) with (o_tol O * o_tol O) by (field; lra). lra. }
    assert (Hdd : (o_tol O / Lam) * (o_tol O / Lam) < scalar m dx dx).
    { apply Rmult_lt_reg_l with Lam; [exact HLam|]. apply Rlt_le_trans with (2 := G3).
      replace (Lam * (o_tol O / Lam * (o_tol O / Lam))) with (o_tol O * o_tol O / Lam) by (field; lra). exact Hsl. }
    assert (HtL : 0 < o_tol O / Lam) by (unfold Rdiv; apply Rmult_lt_0_compat; [exact Ht|apply Rinv_0_lt_compat; exact HLam]).
    assert (Hd0 : 0 < scalar m dx dx) by (assert (0 < (o_tol O / Lam) * (o_tol O / Lam)) by (apply Rmult_lt_0_compat; exact HtL); lra).
    intros a. destruct (search_accepts x f dx Hf Hg' Hd0) as [[A1 A2] A3]. fold a in A1, A2, A3. split.
    - unfold least_rise. fold Lam. assert (/ 10000 * least_alfa m O * (o_tol O * o_tol O / Lam) < / 10000 * a * - scalar m f dx); [|lra].
      rewrite !Rmult_assoc. apply Rmult_lt_compat_l; [lra|].
      apply Rlt_le_trans with (least_alfa m O * - scalar m f dx); [apply Rmult_lt_compat_l; assumption|].
      apply Rmult_le_compat_r; [|exact A1]. assert (0 < o_tol O * o_tol O / Lam); [|lra]. unfold Rdiv. rewrite Rmult_assoc. apply Rmult_lt_0_compat; assumption.
    - assert (En : norm2 m (fun i => moved x a dx i - x i) * norm2 m (fun i => moved x a dx i - x i) = a * a * scalar m dx dx).
      { rewrite norm2_sq. unfold scalar. rewrite <- rsum_scal_l. apply rsum_ext. intros i _. unfold moved. ring. }
      apply Rsqr_incrst_0; [|unfold least_move; fold Lam; left; apply Rmult_lt_0_compat; assumption|apply norm2_pos].
      unfold Rsqr. rewrite En. unfold least_move. fold Lam.
      replace (least_alfa m O * (o_tol O / Lam) * (least_alfa m O * (o_tol O / Lam))) with (least_alfa m O * least_alfa m O * (o_tol O / Lam * (o_tol O / Lam))) by ring.
      apply Rlt_le_trans with (least_alfa m O * least_alfa m O * scalar m dx dx).
      + apply Rmult_lt_compat_l; [apply Rmult_lt_0_compat; exact Hla|exact Hdd].
      + apply Rmult_le_compat_r; [lra|]. apply Rmult_le_compat; lra.
  Qed.

  (** No call raises. *)
  Lemma step_succeeds s : p_fun P (s_x s) = Some (s_f s) -> o_tol O < norm2 m (s_f s) ->
    exists s', solver_step N P O s = Some s' /\ p_fun P (s_x s') = Some (s_f s') /\ s_norm s' = norm2 m (s_f s').
  Proof.
    intros Hf Hn. destruct (direction_exists s Hf Hn) as (dx & Edx & _). unfold solver_step. rewrite Edx. cbn [sbind]. unfold solver_alfa. rewrite HS.
    assert (El : p_lin_nq P (s_x s) dx (shalf N) (sone N) (s_f s) = Some (decrease_loop m (fun z => Fin (L z)) (s_x s) dx (/ 2) 1 (s_f s))) by apply Hsearch.
    destruct HA as (_ & Hv & _). rewrite Hv. cbn [andb].
    destruct HM as [E|E]; rewrite E, El; cbn [sbind fst snd];
      destruct (Hfun (vaxpy N (s_x s) (decrease_loop m (fun z => Fin (L z)) (s_x s) dx (/ 2) 1 (s_f s)) dx)) as (f' & Ef & _); rewrite Ef; cbn [sbind];
      eexists; (split; [reflexivity|]); cbn [s_x s_f s_norm]; split; [exact Ef|reflexivity|exact Ef|reflexivity].
  Qed.
  Lemma loop_returns fuel s : p_fun P (s_x s) = Some (s_f s) -> s_norm s = norm2 m (s_f s) -> solver_loop N P O fuel s <> Raised.
  Proof.
    revert s. induction fuel as [|fuel IH]; intros s Hf Hn; cbn [solver_loop]; [discriminate|].
    destruct (solver_continue N O s) eqn:Ec; [|destruct (o_full_return O); discriminate].
    unfold solver_continue in Ec. apply andb_prop in Ec. destruct Ec as [Ec _]. apply andb_prop in Ec. destruct Ec as [Ec _].
    cbn [gtb run_numerics] in Ec. rewrite Hn in Ec. destruct (Rlt_dec (o_tol O) (norm2 m (s_f s))) as [Hlt|]; [|discriminate].
    destruct (step_succeeds s Hf Hlt) as (s' & Es & Hf' & Hn'). rewrite Es. apply IH; assumption.
  Qed.
  Lemma solver_returns : exists x k ns ds als, solver N P O x0 = Full x k ns ds als.
  Proof.
    assert (HR' : solver N P O x0 <> Raised).
    { unfold solver, solver_init. destruct (Hfun x0) as (f & Ef & _). rewrite Ef. cbn [sbind]. apply loop_returns; [exact Ef|reflexivity]. }
    assert (HF' : solver N P O x0 <> Fuel) by apply solver_terminates.
    destruct HA as (_ & _ & Hfull & _). destruct (solver N P O x0) as [x|x k ns ds als| |] eqn:E; try congruence; [exfalso|repeat eexists].
    revert E. unfold solver. destruct (solver_init N P O x0) as [s|]; [|discriminate]. generalize (S (o_max_steps O)). intros fuel. revert s.
    induction fuel as [|fuel IH]; intros s H; cbn [solver_loop] in H; [discriminate|].
    destruct (solver_continue N O s); [destruct (solver_step N P O s) as [s'|]; [apply (IH s' H)|discriminate]|]. rewrite Hfull in H. discriminate.
  Qed.

  Lemma reaches : exists x k ns ds als norm, solver N P O x0 = Full x k ns ds als /\
    nth_error ns k = Some norm /\ norm <= o_tol O /\ INR k * least_rise m W O <= U - L x0.
  Proof.
    destruct solver_returns as (x & k & ns & ds & als & Hrun). exists x, k, ns, ds, als.
    pose proof (solver_stop_reason _ _ _ _ _ _ _ _ _ _ _ _ Hrun) as (_ & _ & norm & diff & En & Ed & Hstop). exists norm.
    pose proof (solver_full_report _ _ _ _ _ _ _ _ _ _ _ _ Hrun) as (_ & _ & _ & _ & _ & Ed0 & _).
    destruct (run_points _ _ _ _ _ _ _ _ _ Hrun) as (xs & fs & dxs & olds & al & E0 & Ek & _ & Hf & Ht).
    assert (St : forall t, (t < k)%nat -> least_rise m W O < L (xs (S t)) - L (xs t) /\ exists d, nth_error ds (S t) = Some d /\ least_move m W O < d).
    { intros t Hlt. destruct (Ht t Hlt) as (Hg & (s & Hsx & Hsf & Hdx) & Hx & _ & Hdiff & _ & _ & Hl & _). specialize (Hl HS HM).
      cbn [gtb vnorm run_numerics] in Hg. destruct (Rlt_dec (o_tol O) (norm2 m (fs t))) as [Hn|]; [|discriminate].
      destruct (Hf t ltac:(lia)) as [Ef _].
      destruct (direction_exists s ltac:(rewrite Hsx, Hsf; exact Ef) ltac:(rewrite Hsf; exact Hn)) as (dx & Edx & Gd).
      rewrite Hdx in Edx. inversion Edx; subst dx. rewrite Hsf, Hsx in Gd.
      assert (Ea : al t = decrease_loop m (fun z => Fin (L z)) (xs t) (dxs t) (/ 2) 1 (fs t)).
      { pose proof (Hsearch (xs t) (dxs t) (fs t)) as HS'. change (shalf N) with (/ 2) in Hl. change (sone N) with 1 in Hl. rewrite Hl in HS'. inversion HS'; reflexivity. }
      pose proof (good_progress (xs t) (fs t) (dxs t) Ef Hn Gd) as [G1 G2]. rewrite <- Ea in G1, G2.
      assert (Ex : xs (S t) = moved (xs t) (al t) (dxs t)) by exact Hx. rewrite Ex. split; [exact G1|].
      eexists. split; [exact Hdiff|]. rewrite Ex. exact G2. }
    assert (A : forall t, (t <= k)%nat -> INR t * least_rise m W O <= L (xs t) - L x0).
    { induction t as [|t IH]; intros Hle; [rewrite E0; cbn [INR]; lra|]. specialize (IH ltac:(lia)). destruct (St t ltac:(lia)) as [G _]. rewrite S_INR. lra. }
    specialize (A k ltac:(lia)). rewrite Ek in A. specialize (HU x). destruct HA as (_ & _ & _ & _ & He1 & He2 & Hmax).
    split; [exact Hrun|]. split; [exact En|]. split; [|lra].
    cbn [gtb run_numerics] in Hstop. destruct Hstop as [Hs|[Hs|Hs]].
    - destruct (Rlt_dec (o_tol O) norm); [discriminate|lra].
    - exfalso. rewrite Hs in A. lra.
    - exfalso. destruct (Rlt_dec (o_eps O) diff) as [|Hnd]; [discriminate|]. destruct k as [|k].
      + rewrite Ed in Ed0. inversion Ed0. change (sone N) with 1 in *. lra.
      + destruct (St k ltac:(lia)) as (_ & d & Ed' & Hd'). rewrite Ed in Ed'. inversion Ed'. lra.
  Qed.
End Reach.
