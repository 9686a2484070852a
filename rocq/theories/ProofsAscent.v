(** Whole runs of the solver on the models. *)
From Coq Require Import Reals List Arith Bool String Lia Lra.
From Verif Require Import Base SpecDeriv SpecGraph SpecEnsemble SpecWeighted SpecDirected SpecCReMa SpecLinsearch SpecDispatch SpecRun
  ModelCM ModelECM ModelDCM ModelDECM ModelCReMa ModelLinsearch ModelSolver ModelDispatch ModelRun.
From Verif Require Import ProofsEnsemble ProofsCReMa ProofsDirCReMa ProofsRegular ProofsLinsearch ProofsMainLinsearch ProofsDispatch ProofsDispatchU ProofsRun ProofsIterates
  ProofsPSD ProofsPSDModels ProofsIEEE.
Import ListNotations.
Local Open Scope R_scope.

Lemma half_pow_le r : 0 < r <= 1 -> r * (/ 2) ^ 50 <= (/ 2) ^ 50.
Proof. intros H. assert (0 < (/ 2) ^ 50) by (apply pow_lt; lra). rewrite <- (Rmult_1_l ((/ 2) ^ 50)) at 2. apply Rmult_le_compat_r; lra. Qed.
Lemma half_pow_unit k : 0 < (/ 2) ^ k <= 1.
Proof. induction k as [|k IH]; cbn [pow]; lra. Qed.
Lemma accepts N step x dx r f : 0 < r <= 1 ->
  0 < decrease_loop N step x dx (/ 2) r f <= r /\
  (decrease_loop N step x dx (/ 2) r f <= (/ 2) ^ 50 \/ armijo N step x dx f (decrease_loop N step x dx (/ 2) r f)).
Proof.
  intros Hr. destruct (decrease_loop_shape N step x dx (/ 2) r f) as (k & Hk & E & _ & Hs). rewrite E.
  pose proof (half_pow_unit k) as [P1 P2]. split; [split|].
  - apply Rmult_lt_0_compat; lra.
  - rewrite <- (Rmult_1_r r) at 2. apply Rmult_le_compat_l; lra.
  - destruct Hs as [->|Hs]; [left; apply half_pow_le; exact Hr|right]. apply armijo_iff. exact Hs.
Qed.

(** From acceptance to increase, for an objective that is finite only on the domain. *)
Lemma accepted_step N (obj : (nat -> R) -> fval) (dom : (nat -> R) -> Prop) (L : (nat -> R) -> R) x dx f a :
  dom x -> (forall z, dom z -> obj z = Fin (L z)) -> (forall z, obj z <> NaN -> obj z <> MInf -> (exists b, z = moved x b dx) -> dom z) ->
  armijo N obj x dx f a -> dom (moved x a dx) /\ L x - / 10000 * a * SpecLinsearch.scalar N f dx < L (moved x a dx).
Proof.
  intros Hx HL Hd HA. unfold armijo in HA. rewrite (HL x Hx) in HA.
  assert (Hm : dom (moved x a dx)).
  { apply Hd; [| |exists a; reflexivity]; intros E; rewrite E in HA; exact HA. }
  split; [exact Hm|]. rewrite (HL _ Hm) in HA. exact HA.
Qed.

Section Generic.
  Variables (linsolve : (nat -> nat -> R) -> (nat -> R) -> option (nat -> R)) (ok : (nat -> nat -> R) -> bool)
    (eigh : (nat -> nat -> R) -> (nat -> R) * (nat -> nat -> R)) (fuel m : nat).
  Hypothesis HL : linear_solver m linsolve.
  Hypothesis HE : eigen_solver m eigh.

  Lemma run_ascends D a O meth (dom : (nat -> R) -> Prop) (L : (nat -> R) -> R) x0 x k ns ds als :
    In meth descent_methods -> documented O meth ->
    (forall x dx f al, dom x -> p_lin_nq (run_problem eigh fuel m D a) x dx (/ 2) 1 f = Some al ->
      0 < al <= 1 /\ (al <= (/ 2) ^ 50 \/ dom (moved x al dx) /\ L x - / 10000 * al * SpecLinsearch.scalar m f dx < L (moved x al dx))) ->
    (o_method O = Newton -> d_reg D = "matrix_regulariser_function_eigen_based"%string \/
      d_reg D = "matrix_regulariser_function"%string /\
      (forall x H, dom x -> real_mat m (run_entry (d_jac D) a x) = Some H -> forall v, 0 <= qform m H v)) ->
    dom x0 -> solver (run_numerics linsolve ok m) (run_problem eigh fuel m D a) O x0 = Full x k ns ds als ->
    (forall al, In al als -> (/ 2) ^ 50 < al) ->
    (dom x /\ (k <> 0%nat -> L x0 < L x)) /\ (0 <= o_eps O -> INR (k - 1) * gain m O <= L x - L x0).
  Proof.
    intros Hm (HM & HS & HR & He & Ht) Hsearch Hreg Hd Hrun Hals.
    assert (HM' : o_method O = Newton \/ o_method O = QuasiNewton).
    { rewrite HM. cbn in Hm. destruct Hm as [<-|[<-|[]]]; [left|right]; reflexivity. }
    apply (ascent linsolve ok m (run_problem eigh fuel m D a) O dom L HM' HS Ht He Hsearch) with (ns := ns) (ds := ds) (als := als); try assumption.
    intros s f dx Hds Hsf Hf Hn Hdx. destruct HM' as [HN|HQ].
    - destruct (Hreg HN) as [Er|[Er Hp]].
      + assert (Hr : forall H e, p_reg (run_problem eigh fuel m D a) H e = Some (matrix_regulariser_function_eigen_based eigh m H e))
          by (intros H e; cbn [p_reg run_problem]; rewrite Er; reflexivity).
        split; [apply (newton_eigen_descends linsolve ok m (run_problem eigh fuel m D a) O eigh s); try assumption; lra|].
        apply (newton_eigen_slope linsolve ok m (run_problem eigh fuel m D a) O eigh s); assumption.
      + assert (Hr : forall H e, p_reg (run_problem eigh fuel m D a) H e = Some (matrix_regulariser_function H e))
          by (intros H e; cbn [p_reg run_problem]; rewrite Er; reflexivity).
        assert (Hp' : forall H, p_jac_m (run_problem eigh fuel m D a) (s_x s) = Some H -> forall v, 0 <= qform m H v)
          by (intros H HH; apply (Hp (s_x s) H Hds HH)).
        split; [apply (newton_identity_descends linsolve ok m (run_problem eigh fuel m D a) O s); try assumption; lra|].
        apply (newton_identity_slope linsolve ok m (run_problem eigh fuel m D a) O s); assumption.
    - split; [apply (quasi_descends linsolve ok m (run_problem eigh fuel m D a) O s); try assumption; lra|].
      apply (quasi_slope linsolve ok m (run_problem eigh fuel m D a) O s); assumption.
  Qed.
End Generic.

Lemma not_identity reg dflt : reg <> Some "identity"%string -> dflt = "matrix_regulariser_function_eigen_based"%string ->
  (match regularise_name reg with Some e => e | None => dflt end) = "matrix_regulariser_function_eigen_based"%string.
Proof.
  intros H ->. destruct reg as [e|]; [|reflexivity]. cbn [regularise_name].
  destruct (String.eqb e "eigenvalues"); [reflexivity|]. destruct (String.eqb_spec e "identity") as [->|]; [congruence|reflexivity].
Qed.
Lemma any_regulariser reg dflt : dflt = "matrix_regulariser_function"%string ->
  (match regularise_name reg with Some e => e | None => dflt end) = "matrix_regulariser_function_eigen_based"%string \/
  (match regularise_name reg with Some e => e | None => dflt end) = "matrix_regulariser_function"%string.
Proof.
  intros ->. destruct reg as [e|]; [|right; reflexivity]. cbn [regularise_name].
  destruct (String.eqb e "eigenvalues"); [left; reflexivity|]. destruct (String.eqb e "identity"); right; reflexivity.
Qed.

(** ** IEEE objectives *)
Definition bad (v : fval) : Prop := v = NaN \/ v = MInf.
Lemma bad_fadd u v : bad u -> v <> PInf -> bad (fadd u v).
Proof. intros [->| ->] H; [left; reflexivity|]. destruct v; cbn; [right; reflexivity|congruence|right; reflexivity|left; reflexivity]. Qed.
Lemma bad_fadd_r u v : u <> PInf -> bad v -> bad (fadd u v).
Proof. intros H [->| ->]; destruct u; cbn; try (left; reflexivity); try (right; reflexivity). Qed.
Lemma flog_bad b : ~ 0 < b -> bad (flog b).
Proof. intros H. unfold flog. destruct (Rlt_dec 0 b); [contradiction|]. destruct (Req_EM_T b 0); [right|left]; reflexivity. Qed.
Lemma fmul_bad w v : 0 <= w -> bad v -> bad (fmul w v).
Proof.
  intros Hw [->| ->]; [left; reflexivity|]. cbn [fmul]. destruct (Req_EM_T w 0); [left; reflexivity|].
  destruct (Rlt_dec 0 w); [right; reflexivity|lra].
Qed.
Lemma fin_not_bad a : ~ bad (Fin a).
Proof. intros [H|H]; discriminate. Qed.
Lemma bad_notp v : bad v -> v <> PInf.
Proof. intros [->| ->]; discriminate. Qed.

Lemma ffold_bad (g : edge -> R) es acc : (forall e, In e es -> 0 <= snd e) -> acc <> PInf -> bad acc \/ (exists e, In e es /\ ~ 0 < g e) ->
  bad (fold_left (fun f e => fadd f (fmul (snd e) (flog (g e)))) es acc).
Proof.
  revert acc. induction es as [|e es IH]; intros acc Hw Hp H; cbn [fold_left].
  - destruct H as [H|(e & [] & _)]. exact H.
  - assert (Hw' : 0 <= snd e) by (apply Hw; left; reflexivity).
    destruct (Rlt_dec 0 (g e)) as [Hg|Hg].
    + rewrite (flog_pos _ Hg). cbn [fmul]. apply IH; [intros e' He'; apply Hw; right; exact He'|destruct acc; cbn; congruence|].
      destruct H as [H|(e' & [<-|He'] & Hn)]; [left; apply bad_fadd; [exact H|discriminate]|contradiction|right; exists e'; auto].
    + assert (B : bad (fadd acc (fmul (snd e) (flog (g e))))).
      { apply bad_fadd_r; [exact Hp|]. apply fmul_bad; [exact Hw'|]. apply flog_bad. exact Hg. }
      apply IH; [intros e' He'; apply Hw; right; exact He'|apply bad_notp; exact B|left; exact B].
Qed.

Lemma fcrema_dom n s es beta : nonneg_weights es -> floglikelihood_crema_undirected n s es beta <> NaN ->
  floglikelihood_crema_undirected n s es beta <> MInf -> crema_dom es beta.
Proof.
  intros HW H1 H2 i j w Hin. destruct (Rlt_dec 0 (beta i + beta j)) as [H|H]; [exact H|exfalso].
  destruct (ffold_bad (fun e => beta (fst (fst e)) + beta (snd (fst e))) es (Fin (loop n 0 (fun i f => f - s i * beta i)))) as [B|B].
  - intros [[i' j'] w'] He. apply (HW i' j' w' He).
  - discriminate.
  - right. exists (i, j, w). split; [exact Hin|exact H].
  - apply H1. exact B.
  - apply H2. exact B.
Qed.
Lemma fcrema_dir_dom n so si es nzo nzi beta : nonneg_weights es -> floglikelihood_crema_directed n so si es nzo nzi beta <> NaN ->
  floglikelihood_crema_directed n so si es nzo nzi beta <> MInf -> crema_dir_dom n es beta.
Proof.
  intros HW H1 H2 i j w Hin. destruct (Rlt_dec 0 (beta i + beta (j + n)%nat)) as [H|H]; [exact H|exfalso].
  destruct (ffold_bad (fun e => beta (fst (fst e)) + beta (snd (fst e) + n)%nat) es
     (Fin (lloop nzi (lloop nzo 0 (fun i f => f - so i * beta i)) (fun i f => f - si i * beta (i + n)%nat)))) as [B|B].
  - intros [[i' j'] w'] He. apply (HW i' j' w' He).
  - discriminate.
  - right. exists (i, j, w). split; [exact Hin|exact H].
  - apply H1. exact B.
  - apply H2. exact B.
Qed.

(** The DECM objective: a value, or a bad one as soon as one pair is infeasible. *)
Definition finor (v : fval) : Prop := v <> PInf.
Lemma finor_fadd u v : finor u -> finor v -> finor (fadd u v).
Proof. unfold finor. destruct u, v; cbn; congruence. Qed.
Lemma decm_pair_bad f t z : finor f -> 0 < z -> 0 <= t ->
  finor (fsub (fadd f (flog (1 - t))) (flog (1 - t + t * z))) /\
  (bad f \/ 1 <= t -> bad (fsub (fadd f (flog (1 - t))) (flog (1 - t + t * z)))).
Proof.
  intros Hf Hz Ht. unfold fsub. destruct (Rlt_dec t 1) as [H1|H1].
  - assert (0 <= t * z) by (apply Rmult_le_pos; lra). rewrite !flog_pos by lra. cbn [fopp].
    split; [destruct f; cbn; unfold finor in *; congruence|]. intros [HB|HB]; [|lra].
    apply bad_fadd; [apply bad_fadd; [exact HB|discriminate]|discriminate].
  - assert (B : bad (fadd (fadd f (flog (1 - t))) (fopp (flog (1 - t + t * z))))).
    { unfold flog at 1. destruct (Rlt_dec 0 (1 - t)) as [H|H]; [lra|]. destruct (Req_EM_T (1 - t) 0) as [E|E].
      - assert (t = 1) by lra. subst t. rewrite flog_pos by lra. cbn [fopp].
        apply bad_fadd; [|discriminate]. apply bad_fadd_r; [exact Hf|right; reflexivity].
      - left. destruct f, (flog (1 - t + t * z)); reflexivity. }
    split; [apply bad_notp; exact B|]. intros _; exact B.
Qed.
Lemma loop_bad n (a0 : fval) (body : nat -> fval -> fval) (P : nat -> Prop) :
  finor a0 -> (forall i f, (i < n)%nat -> finor f -> finor (body i f) /\ (bad f \/ P i -> bad (body i f))) ->
  finor (loop n a0 body) /\ (bad a0 \/ (exists i, (i < n)%nat /\ P i) -> bad (loop n a0 body)).
Proof.
  intros Ha Hb. induction n as [|n IH].
  - rewrite loop_0. split; [exact Ha|]. intros [H|(i & Hi & _)]; [exact H|lia].
  - rewrite loop_S. destruct IH as [I1 I2]; [intros i f Hi; apply Hb; lia|].
    destruct (Hb n (loop n a0 body) ltac:(lia) I1) as [J1 J2]. split; [exact J1|].
    intros [H|(i & Hi & HP)]; [apply J2; left; apply I2; left; exact H|].
    destruct (Nat.eq_dec i n) as [->|Hne]; [apply J2; right; exact HP|]. apply J2. left. apply I2. right. exists i. split; [lia|exact HP].
Qed.

Lemma fdecm_dom n ko ki so si x : positive_upto (4 * n) x -> floglikelihood_decm n ko ki so si x <> NaN ->
  floglikelihood_decm n ko ki so si x <> MInf -> decm_dom n x.
Proof.
  intros Hx H1 H2. split; [intros r Hr; left; apply Hx; exact Hr|].
  intros i j Hi Hj Hij. destruct (Rlt_dec (x (i + 2 * n)%nat * x (j + 3 * n)%nat) 1) as [H|H]; [exact H|exfalso].
  assert (B : bad (floglikelihood_decm n ko ki so si x)); [|destruct B; auto].
  unfold floglikelihood_decm. cbv zeta.
  apply (loop_bad n (Fin 0) _ (fun i => exists j, (j < n)%nat /\ i <> j /\ ~ x (i + 2 * n)%nat * x (j + 3 * n)%nat < 1)).
  - discriminate.
  - intros a f Ha Hf.
    assert (K : forall (b : bool) (g : fval) w c, finor g -> 0 < c -> finor (if b then g else fadd g (fmul w (flog c))) /\ (bad g -> bad (if b then g else fadd g (fmul w (flog c))))).
    { intros b g w c Hg Hc. rewrite fmul_fin_log by exact Hc. destruct b; [split; auto|]. split; [apply finor_fadd; [exact Hg|discriminate]|].
      intros HB. apply bad_fadd; [exact HB|discriminate]. }
    set (f1 := if Req_EM_T (ko a) 0 then f else fadd f (fmul (ko a) (flog (x a)))).
    assert (F1 : finor f1 /\ (bad f -> bad f1)).
    { unfold f1. destruct (Req_EM_T (ko a) 0); [apply (K true f 0 1 Hf ltac:(lra))|apply (K false f (ko a) (x a) Hf ltac:(apply Hx; lia))]. }
    destruct F1 as [F1 G1].
    set (f2 := if Req_EM_T (ki a) 0 then f1 else fadd f1 (fmul (ki a) (flog (x (a + n)%nat)))).
    assert (F2 : finor f2 /\ (bad f1 -> bad f2)).
    { unfold f2. destruct (Req_EM_T (ki a) 0); [apply (K true f1 0 1 F1 ltac:(lra))|apply (K false f1 (ki a) (x (a + n)%nat) F1 ltac:(apply Hx; lia))]. }
    destruct F2 as [F2 G2].
    set (f3 := if Req_EM_T (so a) 0 then f2 else fadd f2 (fmul (so a) (flog (x (a + 2 * n)%nat)))).
    assert (F3 : finor f3 /\ (bad f2 -> bad f3)).
    { unfold f3. destruct (Req_EM_T (so a) 0); [apply (K true f2 0 1 F2 ltac:(lra))|apply (K false f2 (so a) (x (a + 2 * n)%nat) F2 ltac:(apply Hx; lia))]. }
    destruct F3 as [F3 G3].
    set (f4 := if Req_EM_T (si a) 0 then f3 else fadd f3 (fmul (si a) (flog (x (a + 3 * n)%nat)))).
    assert (F4 : finor f4 /\ (bad f3 -> bad f4)).
    { unfold f4. destruct (Req_EM_T (si a) 0); [apply (K true f3 0 1 F3 ltac:(lra))|apply (K false f3 (si a) (x (a + 3 * n)%nat) F3 ltac:(apply Hx; lia))]. }
    destruct F4 as [F4 G4].
    destruct (loop_bad n f4 (fun j f => if negb (Nat.eqb a j) then
      fsub (fadd f (flog (1 - x (a + 2 * n)%nat * x (j + 3 * n)%nat)))
        (flog (1 - x (a + 2 * n)%nat * x (j + 3 * n)%nat + x (a + 2 * n)%nat * x (j + 3 * n)%nat * x a * x (j + n)%nat)) else f)
      (fun j => a <> j /\ ~ x (a + 2 * n)%nat * x (j + 3 * n)%nat < 1)) as [L1 L2].
    + exact F4.
    + intros b g Hb Hg. destruct (Nat.eqb_spec a b) as [->|Hab]; cbn [negb]; [split; [exact Hg|intros [HB|[HB _]]; [exact HB|congruence]]|].
      assert (P : forall r, (r < 4 * n)%nat -> 0 < x r) by exact Hx.
      pose proof (decm_pair_bad g (x (a + 2 * n)%nat * x (b + 3 * n)%nat) (x a * x (b + n)%nat) Hg
        ltac:(apply Rmult_lt_0_compat; apply P; lia) ltac:(left; apply Rmult_lt_0_compat; apply P; lia)) as [Q1 Q2].
      rewrite <- Rmult_assoc in Q1, Q2. split; [exact Q1|]. intros [HB|[_ HB]]; apply Q2; [left; exact HB|right; lra].
    + split; [exact L1|]. intros [HB|(j' & Hj' & HB)]; apply L2; [left; auto|right; exists j'; auto].
  - right. exists i. split; [exact Hi|]. exists j. auto.
Qed.
Lemma fdecm_fin n ko ki so si x : positive_upto (4 * n) x -> decm_dom n x ->
  floglikelihood_decm n ko ki so si x = Fin (loglikelihood_decm n ko ki so si x).
Proof.
  intros Hx [_ HD]. unfold floglikelihood_decm, loglikelihood_decm. cbv zeta. apply loop_fin. intros i f Hi.
  assert (P : forall r, (r < 4 * n)%nat -> 0 < x r) by exact Hx.
  assert (E : forall (w g : R) r, (r < 4 * n)%nat -> (if Req_EM_T w 0 then Fin g else fadd (Fin g) (fmul w (flog (x r)))) =
     Fin (if Req_EM_T w 0 then g else g + w * ln (x r))).
  { intros w g r Hr. destruct (Req_EM_T w 0); [reflexivity|]. rewrite fmul_fin_log by (apply P; exact Hr). reflexivity. }
  rewrite !E by lia. apply loop_fin. intros j g Hj. destruct (Nat.eqb_spec i j) as [|Hij]; cbn [negb]; [reflexivity|].
  pose proof (HD i j Hi Hj Hij). assert (0 < x (i + 2 * n)%nat * x (j + 3 * n)%nat) by (apply Rmult_lt_0_compat; apply P; lia).
  assert (0 < x (i + 2 * n)%nat * x (j + 3 * n)%nat * x i * x (j + n)%nat) by (apply Rmult_lt_0_compat; [apply Rmult_lt_0_compat; [assumption|apply P; lia]|apply P; lia]).
  rewrite !flog_pos by lra. cbn [fadd fsub fopp]. unfold fsub. cbn [fadd fopp]. f_equal.
Qed.
