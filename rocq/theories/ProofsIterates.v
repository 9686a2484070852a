(** Runs on real vectors: the recurrence they follow, and ascent of the likelihood. *)
From Coq Require Import Reals List Arith Bool Lia Lra.
From Verif Require Import Base SpecLinsearch ModelLinsearch ModelSolver ModelRun SpecRun ProofsRegular ProofsLinsearch ProofsSolver ProofsIEEE ProofsRun.
Import ListNotations.
Local Open Scope R_scope.

Lemma fold_max_ge (l : list R) v : In v l -> v <= fold_right Rmax 0 l.
Proof.
  induction l as [|a l IH]; intros H; [destruct H|]. cbn [fold_right]. destruct H as [->|H]; [apply Rmax_l|].
  apply Rle_trans with (fold_right Rmax 0 l); [apply IH; exact H|apply Rmax_r].
Qed.
Lemma fold_max_in (l : list R) : (forall v, In v l -> 0 <= v) -> l <> [] -> In (fold_right Rmax 0 l) l.
Proof.
  induction l as [|a l IH]; intros Hp Hn; [congruence|]. cbn [fold_right]. destruct l as [|b l].
  - cbn [fold_right]. rewrite Rmax_left by (apply Hp; left; reflexivity). left; reflexivity.
  - unfold Rmax at 1. destruct (Rle_dec a (fold_right Rmax 0 (b :: l))); [right|left; reflexivity].
    apply IH; [intros v Hv; apply Hp; right; exact Hv|discriminate].
Qed.
Lemma vmaxabs_largest linsolve ok m f : (0 < m)%nat -> largest m f (vmaxabs (run_numerics linsolve ok m) f).
Proof.
  intros Hm. cbn [vmaxabs run_numerics]. split.
  - intros i Hi. apply fold_max_ge. apply in_map_iff. exists i. split; [reflexivity|]. apply in_seq. lia.
  - assert (H : In (fold_right Rmax 0 (map (fun i => Rabs (f i)) (seq 0 m))) (map (fun i => Rabs (f i)) (seq 0 m))).
    { apply fold_max_in.
      - intros v Hv. apply in_map_iff in Hv. destruct Hv as [i [<- _]]. apply Rabs_pos.
      - destruct m as [|m]; [lia|discriminate]. }
    apply in_map_iff in H. destruct H as [i [Hi Hin]]. apply in_seq in Hin. exists i. split; [lia|congruence].
Qed.
Lemma norm2_scalar m f : norm2 m f = sqrt (scalar m f f).
Proof. reflexivity. Qed.
Lemma norm_positive m f : 0 < norm2 m f -> exists i, (i < m)%nat /\ f i <> 0.
Proof.
  intros H. destruct (Rle_lt_dec (dot m f f) 0) as [H0|H0].
  - rewrite norm2_scalar in H. change (dot m f f) with (scalar m f f) in H0.
    rewrite (sqrt_neg_0 _ H0) in H. lra.
  - clear H. unfold dot in H0. induction m as [|m IH]; [cbn in H0; lra|]. cbn [rsum] in H0.
    destruct (Req_EM_T (f m) 0) as [E|E]; [|exists m; split; [lia|exact E]].
    rewrite E in H0. destruct IH as [i [Hi Hf]]; [lra|]. exists i. split; [lia|exact Hf].
Qed.

Section Real.
  Variables (linsolve : (nat -> nat -> R) -> (nat -> R) -> option (nat -> R)) (ok : (nat -> nat -> R) -> bool) (m : nat).
  Variables (P : problem (nat -> R) (nat -> nat -> R) R) (O : options R).
  Local Notation N := (run_numerics linsolve ok m).

  Lemma real_alfa (t : nat) (al : nat -> R) als :
    (o_linsearch O = false -> al t = sone N) -> (o_linsearch O = true -> nth_error als t = Some (al t)) ->
    recorded (o_linsearch O) als t (al t).
  Proof. intros H1 H2. unfold recorded. destruct (o_linsearch O); [apply H2; reflexivity|apply (H1 eq_refl)]. Qed.

  (** The direction computed at a point. *)
  Lemma newton_direction s f dx : (0 < m)%nat -> linear_solver m linsolve -> o_method O = Newton ->
    s_f s = f -> p_fun P (s_x s) = Some f -> solver_dx N P O s = Some dx ->
    exists H B, p_jac_m P (s_x s) = Some H /\
      (if o_regularise O then exists e, largest m f e /\ p_reg P H (e * o_regularise_eps O) = Some B else B = H) /\
      (forall i, (i < m)%nat -> apply_mat m B dx i = - f i).
  Proof.
    intros Hm HL HM Hsf Hf Hdx. unfold solver_dx in Hdx. rewrite HM in Hdx.
    destruct (p_jac_m P (s_x s)) as [H|]; [|discriminate]. cbn [sbind] in Hdx.
    destruct (o_verbose O && negb (eigh_ok N H)); [discriminate|].
    destruct (o_regularise O).
    - rewrite Hf in Hdx. cbn [sbind] in Hdx.
      destruct (p_reg P H (smul N (vmaxabs N f) (o_regularise_eps O))) as [B|] eqn:EB; [|discriminate]. cbn [sbind] in Hdx.
      destruct (o_verbose O && negb (eigh_ok N B)); [discriminate|]. cbn [sbind] in Hdx.
      exists H, B. split; [reflexivity|]. split.
      + exists (vmaxabs N f). split; [apply vmaxabs_largest; exact Hm|exact EB].
      + intros i Hi. rewrite (HL _ _ _ Hdx i Hi). cbn [ModelSolver.vneg run_numerics]. rewrite Hsf. reflexivity.
    - cbn [sbind] in Hdx. exists H, H. split; [reflexivity|]. split; [reflexivity|].
      intros i Hi. rewrite (HL _ _ _ Hdx i Hi). cbn [ModelSolver.vneg run_numerics]. rewrite Hsf. reflexivity.
  Qed.
  Lemma quasi_direction s f dx : (0 < m)%nat -> o_method O = QuasiNewton ->
    s_f s = f -> p_fun P (s_x s) = Some f -> solver_dx N P O s = Some dx ->
    exists h b, p_jac_v P (s_x s) = Some h /\
      (if o_regularise O then exists e, largest m f e /\ (forall i, b i = Rmax (h i) (e * o_regularise_eps O)) else b = h) /\
      (forall i, (i < m)%nat -> b i <> 0) /\ (forall i, dx i = - f i / b i).
  Proof.
    intros Hm HM Hsf Hf Hdx. unfold solver_dx in Hdx. rewrite HM in Hdx.
    destruct (p_jac_v P (s_x s)) as [h|]; [|discriminate]. cbn [sbind] in Hdx.
    destruct (o_regularise O).
    - rewrite Hf in Hdx. cbn [sbind] in Hdx. cbn [vdiv run_numerics] in Hdx. destruct (every _ _) eqn:Ev; [|discriminate]. inversion Hdx; subst dx.
      exists h, (fun i => Rmax (h i) (vmaxabs N f * o_regularise_eps O)). split; [reflexivity|]. split; [|split].
      + exists (vmaxabs N f). split; [apply vmaxabs_largest; exact Hm|reflexivity].
      + intros i Hi. rewrite every_true in Ev. specialize (Ev i Hi). apply nonzero_true in Ev. cbn [vfloor smul run_numerics] in Ev. rewrite Rmult_0_r, Rplus_0_l in Ev. exact Ev.
      + intros i. cbn [vdiv ModelSolver.vneg vfloor smul run_numerics]. rewrite Hsf, Rmult_0_r, Rplus_0_l. reflexivity.
    - cbn [sbind vdiv run_numerics] in Hdx. destruct (every _ _) eqn:Ev; [|discriminate]. inversion Hdx; subst dx. exists h, h. split; [reflexivity|]. split; [reflexivity|]. split.
      { intros i Hi. rewrite every_true in Ev. apply nonzero_true. exact (Ev i Hi). }
      intros i. cbn [vdiv ModelSolver.vneg run_numerics]. rewrite Hsf. reflexivity.
  Qed.

  Lemma newton_iterates x0 x k ns ds als : (0 < m)%nat -> linear_solver m linsolve -> o_method O = Newton ->
    solver N P O x0 = Full x k ns ds als ->
    exists xs, xs 0%nat = x0 /\ xs k = x /\ forall t, (t < k)%nat -> exists f H B a,
      p_fun P (xs t) = Some f /\ nth_error ns t = Some (sqrt (scalar m f f)) /\ p_jac_m P (xs t) = Some H /\
      (if o_regularise O then exists e, largest m f e /\ p_reg P H (e * o_regularise_eps O) = Some B else B = H) /\
      recorded (o_linsearch O) als t a /\ newton_move m B f a (xs t) (xs (S t)).
  Proof.
    intros Hm HL HM Hrun. destruct (run_points _ _ _ _ _ _ _ _ _ Hrun) as (xs & fs & dxs & olds & al & E0 & Ek & _ & Hf & Ht).
    exists xs. split; [exact E0|]. split; [exact Ek|]. intros t Hlt. destruct (Ht t Hlt) as (_ & (s & Hsx & Hsf & Hdx) & Hx & _ & _ & A1 & A2 & _).
    destruct (Hf t ltac:(lia)) as [Ef En].
    destruct (newton_direction s (fs t) (dxs t) Hm HL HM Hsf ltac:(rewrite Hsx; exact Ef) Hdx) as (H & B & HH & HB & Happ).
    exists (fs t), H, B, (al t). rewrite Hsx in HH. repeat split; auto.
    - apply real_alfa; assumption.
    - intros i Hi. rewrite Hx. cbn [vaxpy run_numerics]. unfold axpy.
      rewrite (rsum_ext m _ (fun j => al t * (B i j * dxs t j))) by (intros; ring).
      rewrite rsum_scal_l. specialize (Happ i Hi). unfold apply_mat in Happ. rewrite Happ. ring.
  Qed.
  Lemma quasi_iterates x0 x k ns ds als : (0 < m)%nat -> o_method O = QuasiNewton ->
    solver N P O x0 = Full x k ns ds als ->
    exists xs, xs 0%nat = x0 /\ xs k = x /\ forall t, (t < k)%nat -> exists f h b a,
      p_fun P (xs t) = Some f /\ nth_error ns t = Some (sqrt (scalar m f f)) /\ p_jac_v P (xs t) = Some h /\
      (if o_regularise O then exists e, largest m f e /\ (forall i, b i = Rmax (h i) (e * o_regularise_eps O)) else b = h) /\
      recorded (o_linsearch O) als t a /\ diagonal_move m b f a (xs t) (xs (S t)).
  Proof.
    intros Hm HM Hrun. destruct (run_points _ _ _ _ _ _ _ _ _ Hrun) as (xs & fs & dxs & olds & al & E0 & Ek & _ & Hf & Ht).
    exists xs. split; [exact E0|]. split; [exact Ek|]. intros t Hlt. destruct (Ht t Hlt) as (_ & (s & Hsx & Hsf & Hdx) & Hx & _ & _ & A1 & A2 & _).
    destruct (Hf t ltac:(lia)) as [Ef En].
    destruct (quasi_direction s (fs t) (dxs t) Hm HM Hsf ltac:(rewrite Hsx; exact Ef) Hdx) as (h & b & HH & HB & Hnz & Happ).
    exists (fs t), h, b, (al t). rewrite Hsx in HH. split; [exact Ef|]. split; [exact En|]. split; [exact HH|]. split; [exact HB|]. split.
    - apply real_alfa; assumption.
    - intros i Hi. split; [exact (Hnz i Hi)|]. rewrite Hx. cbn [vaxpy run_numerics]. unfold axpy. rewrite Happ. field. exact (Hnz i Hi).
  Qed.
  Lemma fixed_iterates x0 x k ns ds als : o_method O = FixedPoint -> solver N P O x0 = Full x k ns ds als ->
    exists xs, xs 0%nat = x0 /\ xs k = x /\ forall t, (t < k)%nat -> exists f a,
      p_fun P (xs t) = Some f /\ nth_error ns t = Some (sqrt (scalar m f f)) /\
      recorded (o_linsearch O) als t a /\ relaxed_move f a (xs t) (xs (S t)).
  Proof.
    intros HM Hrun. destruct (run_points _ _ _ _ _ _ _ _ _ Hrun) as (xs & fs & dxs & olds & al & E0 & Ek & _ & Hf & Ht).
    exists xs. split; [exact E0|]. split; [exact Ek|]. intros t Hlt. destruct (Ht t Hlt) as (_ & (s & Hsx & Hsf & Hdx) & Hx & _ & _ & A1 & A2 & _).
    destruct (Hf t ltac:(lia)) as [Ef En]. exists (fs t), (al t). repeat split; auto.
    - apply real_alfa; assumption.
    - unfold solver_dx in Hdx. rewrite HM in Hdx. inversion Hdx as [Hd]. intros i. rewrite Hx, <- Hd.
      cbn [vaxpy vinf_fix vsub run_numerics]. unfold axpy. rewrite Hsx, Hsf. ring.
  Qed.

  (** Descent directions. *)
  Lemma largest_pos f e : largest m f e -> (exists i, (i < m)%nat /\ f i <> 0) -> 0 < e.
  Proof. intros [H _] [i [Hi Hf]]. apply Rlt_le_trans with (Rabs (f i)); [apply Rabs_pos_lt; exact Hf|apply H; exact Hi]. Qed.

  (** With the floor on its diagonal the quasi-Newton direction exists. *)
  Lemma quasi_exists s h : o_method O = QuasiNewton -> o_regularise O = true -> 0 < o_regularise_eps O ->
    p_fun P (s_x s) = Some (s_f s) -> 0 < norm2 m (s_f s) -> p_jac_v P (s_x s) = Some h ->
    solver_dx N P O s = Some (fun i => - s_f s i / Rmax (h i) (h i * 0 + vmaxabs N (s_f s) * o_regularise_eps O)) /\ 0 < vmaxabs N (s_f s) * o_regularise_eps O.
  Proof.
    intros HM HR He Hf Hn Hj. destruct (norm_positive _ _ Hn) as [i0 [Hi0 Hf0]].
    assert (E : 0 < vmaxabs N (s_f s) * o_regularise_eps O).
    { apply Rmult_lt_0_compat; [|exact He]. apply (largest_pos (s_f s)); [apply vmaxabs_largest; lia|exists i0; auto]. }
    split; [|exact E]. unfold solver_dx. rewrite HM, Hj. cbn [sbind]. rewrite HR, Hf. cbn [sbind]. generalize dependent (vmaxabs N (s_f s)). intros v E. 
    cbn [vdiv vfloor smul run_numerics ModelSolver.vneg].
    replace (every m _) with true; [reflexivity|]. symmetry. apply every_true. intros i Hi. apply nonzero_pos. apply Rlt_le_trans with (2 := Rmax_r _ _). lra.
  Qed.

  Lemma quasi_descends s f dx : o_method O = QuasiNewton -> o_regularise O = true -> 0 < o_regularise_eps O ->
    s_f s = f -> p_fun P (s_x s) = Some f -> 0 < norm2 m f -> solver_dx N P O s = Some dx -> scalar m f dx < 0.
  Proof.
    intros HM HR He Hsf Hf Hn Hdx. destruct (norm_positive _ _ Hn) as [i0 [Hi0 Hf0]].
    destruct (quasi_direction s f dx ltac:(lia) HM Hsf Hf Hdx) as (h & b & _ & HB & _ & Hd). rewrite HR in HB. destruct HB as [e [Hl Hb]].
    pose proof (largest_pos f e Hl ltac:(exists i0; auto)) as Hep.
    assert (Hbp : forall i, 0 < b i).
    { intros i. rewrite Hb. apply Rlt_le_trans with (e * o_regularise_eps O); [apply Rmult_lt_0_compat; assumption|apply Rmax_r]. }
    unfold scalar. apply Ropp_lt_cancel. rewrite Ropp_0, <- Rmult_1_l, Ropp_mult_distr_r_reverse, Ropp_mult_distr_l, <- rsum_scal_l.
    assert (Hnn : forall i, 0 <= -(1) * (f i * dx i)).
    { intros i. rewrite Hd. replace (-(1) * (f i * (- f i / b i))) with (f i * f i * / b i) by (field; specialize (Hbp i); lra).
      apply Rmult_le_pos; [apply Rle_0_sqr|]. left. apply Rinv_0_lt_compat. apply Hbp. }
    apply (rsum_pos m _ i0); [intros; apply Hnn|exact Hi0|]. rewrite Hd.
    replace (-(1) * (f i0 * (- f i0 / b i0))) with (f i0 * f i0 * / b i0) by (field; specialize (Hbp i0); lra).
    apply Rmult_lt_0_compat; [apply Rsqr_pos_lt; exact Hf0|]. apply Rinv_0_lt_compat. apply Hbp.
  Qed.

  Lemma newton_eigen_descends eigh s f dx : o_method O = Newton -> o_regularise O = true -> 0 < o_regularise_eps O ->
    linear_solver m linsolve -> eigen_solver m eigh ->
    (forall H e, p_reg P H e = Some (matrix_regulariser_function_eigen_based eigh m H e)) ->
    s_f s = f -> p_fun P (s_x s) = Some f -> 0 < norm2 m f -> solver_dx N P O s = Some dx -> scalar m f dx < 0.
  Proof.
    intros HM HR He HL HE Hreg Hsf Hf Hn Hdx. destruct (norm_positive _ _ Hn) as [i0 [Hi0 Hf0]].
    destruct (newton_direction s f dx ltac:(lia) HL HM Hsf Hf Hdx) as (H & B & _ & HB & Happ). rewrite HR in HB. destruct HB as [e [Hl Hb]].
    rewrite Hreg in Hb. inversion Hb; subst B.
    pose proof (largest_pos f e Hl ltac:(exists i0; auto)) as Hep.
    apply (regularised_descent eigh m H (e * o_regularise_eps O) f dx); [apply Rmult_lt_0_compat; assumption| |exact Happ|exists i0; auto].
    apply HE. intros i j _ _. unfold symmetrise. ring.
  Qed.
  Lemma newton_identity_descends s f dx : o_method O = Newton -> o_regularise O = true -> 0 < o_regularise_eps O ->
    linear_solver m linsolve ->
    (forall H e, p_reg P H e = Some (matrix_regulariser_function H e)) ->
    (forall H, p_jac_m P (s_x s) = Some H -> forall v, 0 <= qform m H v) ->
    s_f s = f -> p_fun P (s_x s) = Some f -> 0 < norm2 m f -> solver_dx N P O s = Some dx -> scalar m f dx < 0.
  Proof.
    intros HM HR He HL Hreg Hpsd Hsf Hf Hn Hdx. destruct (norm_positive _ _ Hn) as [i0 [Hi0 Hf0]].
    destruct (newton_direction s f dx ltac:(lia) HL HM Hsf Hf Hdx) as (H & B & HH & HB & Happ). rewrite HR in HB. destruct HB as [e [Hl Hb]].
    rewrite Hreg in Hb. inversion Hb; subst B.
    pose proof (largest_pos f e Hl ltac:(exists i0; auto)) as Hep.
    apply (regularised_descent_identity m H (e * o_regularise_eps O) f dx); [apply Rmult_lt_0_compat; assumption|apply Hpsd; exact HH|exact Happ|exists i0; auto].
  Qed.

  (** The same directions, with the slope they guarantee. *)
  Definition floor_c : R := o_tol O / sqrt (INR m) * o_regularise_eps O.
  Lemma norm_largest f e : largest m f e -> norm2 m f <= sqrt (INR m) * e.
  Proof.
    intros [H [i [Hi Ei]]]. assert (He : 0 <= e) by (rewrite Ei; apply Rabs_pos).
    assert (Q : norm2 m f * norm2 m f <= (sqrt (INR m) * e) * (sqrt (INR m) * e)).
    { rewrite norm2_scalar, sqrt_sqrt by (unfold scalar; apply rsum_nonneg; intros; apply Rle_0_sqr).
      replace (sqrt (INR m) * e * (sqrt (INR m) * e)) with (sqrt (INR m) * sqrt (INR m) * (e * e)) by ring.
      rewrite sqrt_sqrt by apply pos_INR. unfold scalar. rewrite <- (rsum_const m (e * e)). apply rsum_le. intros j Hj. specialize (H j Hj).
      rewrite <- (Rabs_pos_eq (f j * f j)) by apply Rle_0_sqr. rewrite Rabs_mult. apply Rmult_le_compat; auto using Rabs_pos. }
    apply Rsqr_incr_0; [exact Q|apply sqrt_pos|]. apply Rmult_le_pos; [apply sqrt_pos|exact He].
  Qed.
  Lemma floor_le f e : (0 < m)%nat -> 0 < o_regularise_eps O -> largest m f e -> o_tol O < norm2 m f -> floor_c <= e * o_regularise_eps O.
  Proof.
    intros Hm He Hl Hn. unfold floor_c. apply Rmult_le_compat_r; [lra|].
    assert (Hs : 0 < sqrt (INR m)) by (apply sqrt_lt_R0; apply lt_0_INR; exact Hm).
    apply Rmult_le_reg_l with (sqrt (INR m)); [exact Hs|]. replace (sqrt (INR m) * (o_tol O / sqrt (INR m))) with (o_tol O) by (field; lra).
    pose proof (norm_largest f e Hl). lra.
  Qed.
  Lemma slope_of f dx B mu : floor_c <= mu -> (forall i, (i < m)%nat -> apply_mat m B dx i = - f i) ->
    mu * scalar m dx dx <= qform m B dx -> floor_c * scalar m dx dx <= - scalar m f dx.
  Proof.
    intros Hc Happ HQ. rewrite qform_apply in HQ.
    assert (E : scalar m dx (apply_mat m B dx) = - scalar m f dx).
    { unfold scalar. rewrite <- rsum_opp. apply rsum_ext. intros j Hj. rewrite (Happ j Hj). ring. }
    rewrite E in HQ. apply Rle_trans with (mu * scalar m dx dx); [|exact HQ]. apply Rmult_le_compat_r; [|exact Hc].
    unfold scalar. apply rsum_nonneg; intros; apply Rle_0_sqr.
  Qed.
  Lemma quasi_slope s f dx : o_method O = QuasiNewton -> o_regularise O = true -> 0 < o_regularise_eps O -> 0 <= o_tol O ->
    s_f s = f -> p_fun P (s_x s) = Some f -> o_tol O < norm2 m f -> solver_dx N P O s = Some dx -> floor_c * scalar m dx dx <= - scalar m f dx.
  Proof.
    intros HM HR He Ht Hsf Hf Hn Hdx. destruct (norm_positive m f ltac:(lra)) as [i0 [Hi0 Hf0]].
    destruct (quasi_direction s f dx ltac:(lia) HM Hsf Hf Hdx) as (h & b & _ & HB & _ & Hd). rewrite HR in HB. destruct HB as [e [Hl Hb]].
    pose proof (largest_pos f e Hl ltac:(exists i0; auto)) as Hep. assert (Hep' : 0 < e * o_regularise_eps O) by (apply Rmult_lt_0_compat; assumption).
    pose proof (floor_le f e ltac:(lia) He Hl Hn) as Hfl.
    unfold scalar. rewrite <- rsum_scal_l, <- rsum_opp. apply rsum_le. intros i Hi.
    assert (Hbi : e * o_regularise_eps O <= b i) by (rewrite Hb; apply Rmax_r).
    replace (- (f i * dx i)) with (b i * (dx i * dx i)) by (rewrite Hd; field; lra). apply Rmult_le_compat_r; [apply Rle_0_sqr|lra].
  Qed.
  Lemma newton_eigen_slope eigh s f dx : o_method O = Newton -> o_regularise O = true -> 0 < o_regularise_eps O -> 0 <= o_tol O ->
    linear_solver m linsolve -> eigen_solver m eigh ->
    (forall H e, p_reg P H e = Some (matrix_regulariser_function_eigen_based eigh m H e)) ->
    s_f s = f -> p_fun P (s_x s) = Some f -> o_tol O < norm2 m f -> solver_dx N P O s = Some dx -> floor_c * scalar m dx dx <= - scalar m f dx.
  Proof.
    intros HM HR He Ht HL HE Hreg Hsf Hf Hn Hdx. destruct (norm_positive m f ltac:(lra)) as [i0 [Hi0 Hf0]].
    destruct (newton_direction s f dx ltac:(lia) HL HM Hsf Hf Hdx) as (H & B & _ & HB & Happ). rewrite HR in HB. destruct HB as [e [Hl Hb]].
    rewrite Hreg in Hb. inversion Hb; subst B.
    apply (slope_of f dx _ (e * o_regularise_eps O) (floor_le f e ltac:(lia) He Hl Hn) Happ).
    apply eigen_qform. apply HE. intros i j _ _. unfold symmetrise. ring.
  Qed.
  Lemma newton_identity_slope s f dx : o_method O = Newton -> o_regularise O = true -> 0 < o_regularise_eps O -> 0 <= o_tol O ->
    linear_solver m linsolve ->
    (forall H e, p_reg P H e = Some (matrix_regulariser_function H e)) ->
    (forall H, p_jac_m P (s_x s) = Some H -> forall v, 0 <= qform m H v) ->
    s_f s = f -> p_fun P (s_x s) = Some f -> o_tol O < norm2 m f -> solver_dx N P O s = Some dx -> floor_c * scalar m dx dx <= - scalar m f dx.
  Proof.
    intros HM HR He Ht HL Hreg Hpsd Hsf Hf Hn Hdx. destruct (norm_positive m f ltac:(lra)) as [i0 [Hi0 Hf0]].
    destruct (newton_direction s f dx ltac:(lia) HL HM Hsf Hf Hdx) as (H & B & HH & HB & Happ). rewrite HR in HB. destruct HB as [e [Hl Hb]].
    rewrite Hreg in Hb. inversion Hb; subst B.
    apply (slope_of f dx _ (e * o_regularise_eps O) (floor_le f e ltac:(lia) He Hl Hn) Happ).
    rewrite (proj2 (regulariser_spec m H (e * o_regularise_eps O)) dx). specialize (Hpsd H HH dx). lra.
  Qed.

  (** Ascent along a run. *)
  Section Ascent.
    Variables (dom : (nat -> R) -> Prop) (L : (nat -> R) -> R).
    Hypothesis HM : o_method O = Newton \/ o_method O = QuasiNewton.
    Hypothesis HS : o_linsearch O = true.
    Hypothesis Htol : 0 <= o_tol O.
    Hypothesis Hreg : 0 < o_regularise_eps O.
    Hypothesis search : forall x dx f a, dom x -> p_lin_nq P x dx (/ 2) 1 f = Some a ->
      0 < a <= 1 /\ (a <= (/ 2) ^ 50 \/ dom (moved x a dx) /\ L x - / 10000 * a * scalar m f dx < L (moved x a dx)).
    Hypothesis direction : forall s f dx, dom (s_x s) -> s_f s = f -> p_fun P (s_x s) = Some f -> o_tol O < norm2 m f ->
      solver_dx N P O s = Some dx -> scalar m f dx < 0 /\ floor_c * scalar m dx dx <= - scalar m f dx.

    Lemma ascent x0 x k ns ds als : dom x0 -> solver N P O x0 = Full x k ns ds als ->
      (forall a, In a als -> (/ 2) ^ 50 < a) ->
      (dom x /\ (k <> 0%nat -> L x0 < L x)) /\ (0 <= o_eps O -> INR (k - 1) * gain m O <= L x - L x0).
    Proof.
      intros Hd Hrun Hals. pose proof (solver_stop_reason _ _ _ _ _ _ _ _ _ _ _ _ Hrun) as (_ & Hgo & _).
      destruct (run_points _ _ _ _ _ _ _ _ _ Hrun) as (xs & fs & dxs & olds & al & E0 & Ek & _ & Hf & Ht).
      assert (St : forall t, (t < k)%nat -> dom (xs t) -> dom (xs (S t)) /\ L (xs t) < L (xs (S t)) /\
        (0 <= o_eps O -> (S t < k)%nat -> gain m O <= L (xs (S t)) - L (xs t))).
      { intros t Hlt Hdt. destruct (Ht t Hlt) as (Hg & (s & Hsx & Hsf & Hdx) & Hx & _ & Hdiff & _ & Hn & Hl & _).
        specialize (Hl HS HM). destruct (search _ _ _ _ Hdt Hl) as [Ha [Hc|[Hd' Hi]]].
        { specialize (Hals (al t) (nth_error_In _ _ (Hn HS))). lra. }
        assert (Hdir : scalar m (fs t) (dxs t) < 0 /\ floor_c * scalar m (dxs t) (dxs t) <= - scalar m (fs t) (dxs t)).
        { destruct (Hf t ltac:(lia)) as [Ef _]. apply (direction s); try (rewrite Hsx); auto.
          cbn [gtb vnorm run_numerics] in Hg. destruct (Rlt_dec (o_tol O) (norm2 m (fs t))); [lra|discriminate]. }
        destruct Hdir as [Hneg Hsl].
        assert (E : xs (S t) = moved (xs t) (al t) (dxs t)) by exact Hx. rewrite E. split; [exact Hd'|].
        assert (Hp : 0 <= / 10000 * al t * - scalar m (fs t) (dxs t)) by (apply Rmult_le_pos; [apply Rmult_le_pos; lra|lra]).
        split; [lra|]. intros Hep Hlt'.
        destruct (Hgo (S t) Hlt') as (_ & b & _ & Hb & _ & Hgt). rewrite Hdiff in Hb. inversion Hb; subst b. clear Hb.
        cbn [gtb vnorm vnan_fix vsub run_numerics] in Hgt. destruct (Rlt_dec (o_eps O) _) as [Hlt2|] in Hgt; [clear Hgt|discriminate].
        assert (En : norm2 m (fun i => xs (S t) i - xs t i) * norm2 m (fun i => xs (S t) i - xs t i) = al t * al t * scalar m (dxs t) (dxs t)).
        { rewrite norm2_scalar, sqrt_sqrt by (unfold scalar; apply rsum_nonneg; intros; apply Rle_0_sqr).
          unfold scalar. rewrite <- rsum_scal_l. apply rsum_ext. intros i Hi0. rewrite E. unfold moved. ring. }
        assert (Hsq : o_eps O * o_eps O <= al t * al t * scalar m (dxs t) (dxs t)).
        { rewrite <- En. apply Rmult_le_compat; lra. }
        assert (Hsc : 0 <= scalar m (dxs t) (dxs t)) by (unfold scalar; apply rsum_nonneg; intros; apply Rle_0_sqr).
        assert (Hfl : 0 <= floor_c).
        { unfold floor_c. apply Rmult_le_pos; [|lra]. unfold Rdiv. apply Rmult_le_pos; [exact Htol|].
          destruct (Req_EM_T (sqrt (INR m)) 0) as [Ez|Ez]; [rewrite Ez, Rinv_0; lra|]. left. apply Rinv_0_lt_compat. pose proof (sqrt_pos (INR m)). lra. }
        unfold gain. fold floor_c.
        apply Rle_trans with (/ 10000 * floor_c * (al t * al t * scalar m (dxs t) (dxs t))).
        { apply Rmult_le_compat_l; [apply Rmult_le_pos; lra|exact Hsq]. }
        apply Rle_trans with (/ 10000 * al t * (floor_c * scalar m (dxs t) (dxs t))).
        { replace (/ 10000 * floor_c * (al t * al t * scalar m (dxs t) (dxs t))) with (/ 10000 * al t * (floor_c * scalar m (dxs t) (dxs t)) * al t) by ring.
          rewrite <- Rmult_1_r. apply Rmult_le_compat_l; [|lra]. apply Rmult_le_pos; [apply Rmult_le_pos; lra|apply Rmult_le_pos; assumption]. }
        apply Rle_trans with (/ 10000 * al t * - scalar m (fs t) (dxs t)); [|lra].
        apply Rmult_le_compat_l; [apply Rmult_le_pos; lra|exact Hsl]. }
      assert (A : forall t, (t <= k)%nat -> dom (xs t) /\ (t <> 0%nat -> L x0 < L (xs t)) /\ ((t < k)%nat -> 0 <= o_eps O -> INR t * gain m O <= L (xs t) - L x0)).
      { induction t as [|t IH]; intros Hle; [rewrite E0; split; [exact Hd|split; [congruence|intros _ _; cbn [INR]; lra]]|].
        destruct (IH ltac:(lia)) as (Hdt & Hlt & Hgain). destruct (St t ltac:(lia) Hdt) as (D1 & D2 & D3). split; [exact D1|]. split.
        - intros _. destruct t as [|t]; [rewrite E0 in D2; exact D2|]. specialize (Hlt ltac:(lia)). lra.
        - intros Hk Hep. specialize (D3 Hep Hk). specialize (Hgain ltac:(lia) Hep). rewrite S_INR. lra. }
      rewrite <- Ek. destruct (A k ltac:(lia)) as (A1 & A2 & _). split; [split; assumption|]. intros Hep.
      destruct k as [|k]; [cbn [Nat.sub INR]; rewrite E0; lra|]. replace (S k - 1)%nat with k by lia.
      destruct (A k ltac:(lia)) as (Dk & _ & Gk). destruct (St k ltac:(lia) Dk) as (_ & D2 & _). specialize (Gk ltac:(lia) Hep). lra.
    Qed.
  End Ascent.
  Section Stay.
    Variable dom : (nat -> R) -> Prop.
    Hypothesis HM : o_method O = Newton \/ o_method O = QuasiNewton.
    Hypothesis HS : o_linsearch O = true.
    Hypothesis search : forall x dx f a, dom x -> p_lin_nq P x dx (/ 2) 1 f = Some a -> dom (moved x a dx).
    Lemma stays x0 x k ns ds als : dom x0 -> solver N P O x0 = Full x k ns ds als -> dom x.
    Proof.
      intros Hd Hrun. destruct (run_points _ _ _ _ _ _ _ _ _ Hrun) as (xs & fs & dxs & olds & al & E0 & Ek & _ & Hf & Ht).
      assert (A : forall t, (t <= k)%nat -> dom (xs t)).
      { induction t as [|t IH]; intros Hle; [rewrite E0; exact Hd|].
        destruct (Ht t ltac:(lia)) as (_ & _ & Hx & _ & _ & _ & _ & Hl & _). rewrite Hx.
        exact (search _ _ _ _ (IH ltac:(lia)) (Hl HS HM)). }
      rewrite <- Ek. apply A. lia.
    Qed.
  End Stay.
  Section StayFixed.
    Variable dom : (nat -> R) -> Prop.
    Hypothesis HM : o_method O = FixedPoint.
    Hypothesis HS : o_linsearch O = true.
    Hypothesis search : forall x dx old t a, dom x -> p_lin_fp P x dx old 1 (/ 2) t = Some a -> dom (moved x a dx).
    Lemma stays_fixed x0 x k ns ds als : dom x0 -> solver N P O x0 = Full x k ns ds als -> dom x.
    Proof.
      intros Hd Hrun. destruct (run_points _ _ _ _ _ _ _ _ _ Hrun) as (xs & fs & dxs & olds & al & E0 & Ek & _ & Hf & Ht).
      assert (A : forall t, (t <= k)%nat -> dom (xs t)).
      { induction t as [|t IH]; intros Hle; [rewrite E0; exact Hd|].
        destruct (Ht t ltac:(lia)) as (_ & _ & Hx & _ & _ & _ & _ & _ & Hl). rewrite Hx.
        exact (search _ _ _ _ _ (IH ltac:(lia)) (Hl HS HM)). }
      rewrite <- Ek. apply A. lia.
    Qed.
  End StayFixed.
End Real.
