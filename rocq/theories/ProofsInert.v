(** Coordinates on which the objective does not depend are never moved. *)
From Coq Require Import Reals List Arith Bool String Lia Lra.
From Verif Require Import Base SpecDirected SpecLinsearch SpecDispatch SpecRun SpecTool ModelDCM ModelIEEE ModelLinsearch ModelSolver ModelDispatch ModelRun.
From Verif Require Import ProofsList ProofsDCM ProofsMainDCM ProofsRegular ProofsLinsearch ProofsDispatch ProofsRun ProofsIterates ProofsStays ProofsGuarded.
Import ListNotations.
Local Open Scope R_scope.

Lemma identity_inert m b eps i dx : (i < m)%nat -> (forall j, (j < m)%nat -> b i j = 0 /\ b j i = 0) ->
  apply_mat m (matrix_regulariser_function b eps) dx i = eps * dx i.
Proof.
  intros Hi Hb. unfold apply_mat, matrix_regulariser_function, symmetrise, identity.
  rewrite (rsum_ext m _ (fun j => if Nat.eqb j i then eps * dx j else 0)).
  - rewrite (rsum_single m i (fun j => eps * dx j) Hi). reflexivity.
  - intros j Hj. destruct (Hb j Hj) as [-> ->]. rewrite (Nat.eqb_sym i j). destruct (Nat.eqb j i); ring.
Qed.

Lemma eigen_inert eigh m b eps i dx : (i < m)%nat -> 0 <= eps -> eigen_solver m eigh -> (forall j, (j < m)%nat -> b i j = 0 /\ b j i = 0) ->
  apply_mat m (matrix_regulariser_function_eigen_based eigh m b eps) dx i = eps * dx i.
Proof.
  intros Hi He HE Hb.
  assert (HS : eigen_decomposition m (symmetrise b) (fst (eigh (symmetrise b))) (snd (eigh (symmetrise b)))) by (apply HE; intros p q _ _; unfold symmetrise; ring).
  pose proof HS as (H1 & H2 & H3). set (t := fst (eigh (symmetrise b))) in *. set (e := snd (eigh (symmetrise b))) in *.
  assert (Z : forall p, (p < m)%nat -> e i p * t p = 0).
  { intros p Hp. transitivity (rsum m (fun j => symmetrise b i j * e j p)).
    - rewrite (rsum_ext m _ (fun j => rsum m (fun q => e i q * t q * (e j q * e j p)))).
      + rewrite rsum_swap. rewrite (rsum_ext m _ (fun q => if Nat.eqb q p then e i q * t q else 0)).
        * rewrite (rsum_single m p (fun q => e i q * t q) Hp). reflexivity.
        * intros q Hq. rewrite rsum_scal_l, (H1 q p Hq Hp). destruct (Nat.eqb q p); ring.
      + intros j Hj. rewrite (H3 i j Hi Hj), <- rsum_scal_r. apply rsum_ext. intros q Hq. ring.
    - apply rsum_zero. intros j Hj. unfold symmetrise. destruct (Hb j Hj) as [-> ->]. ring. }
  unfold apply_mat.
  rewrite (rsum_ext m _ (fun j => if Nat.eqb j i then eps * dx j else 0)).
  - rewrite (rsum_single m i (fun j => eps * dx j) Hi). reflexivity.
  - intros j Hj. rewrite (eigen_entry eigh m b eps i j Hi Hj). fold t e.
    rewrite (rsum_ext m _ (fun p => eps * (e i p * e j p))).
    + rewrite rsum_scal_l, (H2 i j Hi Hj), (Nat.eqb_sym i j). destruct (Nat.eqb j i); ring.
    + intros p Hp. specialize (Z p Hp). destruct (Rmult_integral _ _ Z) as [E|E]; [rewrite E; ring|].
      rewrite E. destruct (Rlt_dec eps 0) as [Q|_]; [lra|ring].
Qed.

Section Inert.
  Variables (linsolve : (nat -> nat -> R) -> (nat -> R) -> option (nat -> R)) (ok : (nat -> nat -> R) -> bool) (m : nat).
  Variables (P : problem (nat -> R) (nat -> nat -> R) R) (O : options R).
  Local Notation N := (run_numerics linsolve ok m).
  Variable i : nat.
  Hypothesis Hi : (i < m)%nat.
  Hypothesis HR : o_regularise O = true.
  Hypothesis HE : 0 < o_regularise_eps O.
  Hypothesis HT : 0 <= o_tol O.
  Hypothesis Hfun : forall x f, p_fun P x = Some f -> f i = 0.

  Lemma inert_quasi s f dx : o_method O = QuasiNewton -> s_f s = f -> p_fun P (s_x s) = Some f -> solver_dx N P O s = Some dx -> dx i = 0.
  Proof.
    intros HM Hsf Hf Hdx. destruct (quasi_direction linsolve ok m P O s f dx ltac:(lia) HM Hsf Hf Hdx) as (h & b & _ & _ & _ & Hd).
    rewrite Hd, (Hfun _ _ Hf). unfold Rdiv. ring.
  Qed.
  Lemma inert_newton s f dx : o_method O = Newton -> linear_solver m linsolve ->
    (forall H, p_jac_m P (s_x s) = Some H -> forall e B v, 0 <= e -> p_reg P H e = Some B -> apply_mat m B v i = e * v i) ->
    s_f s = f -> p_fun P (s_x s) = Some f -> 0 < norm2 m f -> solver_dx N P O s = Some dx -> dx i = 0.
  Proof.
    intros HM HL Hjac Hsf Hf Hn Hdx. destruct (norm_positive _ _ Hn) as [i0 [Hi0 Hf0]].
    destruct (newton_direction linsolve ok m P O s f dx ltac:(lia) HL HM Hsf Hf Hdx) as (H & B & HH & HB & Happ). rewrite HR in HB. destruct HB as [e [Hl Hb]].
    pose proof (largest_pos m f e Hl ltac:(exists i0; auto)) as Hep. assert (0 < e * o_regularise_eps O) by (apply Rmult_lt_0_compat; assumption).
    specialize (Happ i Hi). rewrite (Hjac H HH _ _ dx (Rlt_le _ _ H0) Hb), (Hfun _ _ Hf), Ropp_0 in Happ.
    destruct (Rmult_integral _ _ Happ) as [E|E]; [lra|exact E].
  Qed.
  Hypothesis Hdesc : (o_method O = QuasiNewton) \/ (o_method O = Newton /\ linear_solver m linsolve /\
    forall x H, p_jac_m P x = Some H -> forall e B v, 0 <= e -> p_reg P H e = Some B -> apply_mat m B v i = e * v i).
  Lemma inert_run x0 x k ns ds als : solver N P O x0 = Full x k ns ds als -> x i = x0 i.
  Proof.
    intros Hrun. destruct (run_points _ _ _ _ _ _ _ _ _ Hrun) as (xs & fs & dxs & olds & al & E0 & Ek & _ & Hf & Ht).
    assert (A : forall t, (t <= k)%nat -> xs t i = x0 i).
    { induction t as [|t IH]; intros Hle; [rewrite E0; reflexivity|].
      destruct (Ht t ltac:(lia)) as (Hg & (s & Hsx & Hsf & Hdx) & Hx & _). rewrite Hx. cbn [vaxpy run_numerics]. unfold axpy.
      destruct (Hf t ltac:(lia)) as [Ef _].
      assert (D : dxs t i = 0).
      { destruct Hdesc as [HM|(HM & HL & HJ)].
        - apply (inert_quasi s (fs t)); auto. rewrite Hsx. exact Ef.
        - apply (inert_newton s (fs t)); auto; [intros H HH; exact (HJ _ H HH)|rewrite Hsx; exact Ef|].
          cbn [gtb vnorm run_numerics] in Hg. destruct (Rlt_dec (o_tol O) (norm2 m (fs t))); [lra|discriminate]. }
      rewrite D, (IH ltac:(lia)). ring. }
    rewrite <- Ek. apply A. lia.
  Qed.
End Inert.

(** * The directed binary models *)
Lemma prime_dcm_inert n ko ki nzo nzi c x r : (r < n)%nat /\ ~ In r nzo \/ (n <= r)%nat /\ ~ In (r - n)%nat nzi ->
  loglikelihood_prime_dcm n ko ki nzo nzi c x r = 0 /\ loglikelihood_prime_dcm_exp n ko ki nzo nzi c x r = 0.
Proof.
  unfold loglikelihood_prime_dcm, loglikelihood_prime_dcm_exp. cbv zeta. intros [[L H]|[L H]].
  - rewrite (proj2 (Nat.ltb_lt r n) L). destruct (memb_spec r nzo); [contradiction|]. auto.
  - rewrite (proj2 (Nat.ltb_ge r n) L). destruct (memb_spec (r - n) nzi); [contradiction|]. auto.
Qed.
Lemma hessian_dcm_inert n ko ki nzo nzi c x r t : (r < n)%nat /\ ~ In r nzo \/ (n <= r)%nat /\ ~ In (r - n)%nat nzi ->
  (loglikelihood_hessian_dcm n ko ki nzo nzi c x r t = 0 /\ loglikelihood_hessian_dcm n ko ki nzo nzi c x t r = 0) /\
  (loglikelihood_hessian_dcm_exp n nzo nzi c x r t = 0 /\ loglikelihood_hessian_dcm_exp n nzo nzi c x t r = 0).
Proof.
  unfold loglikelihood_hessian_dcm, loglikelihood_hessian_dcm_exp. cbv zeta. intros [[L H]|[L H]].
  - rewrite (proj2 (Nat.ltb_lt r n) L). destruct (Nat.ltb t n).
    + destruct (Nat.eqb_spec r t) as [<-|Hne]; [rewrite Nat.eqb_refl|destruct (Nat.eqb_spec t r); [congruence|]]; cbn [andb]; [|auto].
      destruct (memb_spec r nzo); [contradiction|]. auto.
    + destruct (memb_spec r nzo); [contradiction|]. cbn [andb]. auto.
  - rewrite (proj2 (Nat.ltb_ge r n) L). destruct (Nat.ltb t n).
    + destruct (memb_spec (r - n) nzi); [contradiction|]. rewrite !andb_false_r. auto.
    + destruct (Nat.eqb_spec r t) as [<-|Hne]; [rewrite Nat.eqb_refl|destruct (Nat.eqb_spec t r); [congruence|]]; cbn [andb]; [|auto].
      destruct (memb_spec (r - n) nzi); [contradiction|]. auto.
Qed.

Section Directed.
  Variables (linsolve : (nat -> nat -> R) -> (nat -> R) -> option (nat -> R)) (ok : (nat -> nat -> R) -> bool)
    (eigh : (nat -> nat -> R) -> (nat -> R) * (nat -> nat -> R)) (fuel : nat).
  Lemma real_mat_fin m h : real_mat m (Some (VMat (fun i j => Fin (h i j)))) = Some h.
  Proof.
    unfold real_mat. replace (forallb _ (seq 0 m)) with true; [reflexivity|]. symmetry. apply forallb_forall. intros i _.
    unfold all_fin. replace (forallb _ (seq 0 m)) with true; [reflexivity|]. symmetry. apply forallb_forall. reflexivity.
  Qed.
  Lemma real_vec_fin m h : real_vec m (Some (VVec (fun i => Fin (h i)))) = Some h.
  Proof. unfold real_vec, all_fin. replace (forallb _ (seq 0 m)) with true; [reflexivity|]. symmetry. apply forallb_forall. reflexivity. Qed.
  Lemma regularisers_inert D a m r H e B v : (r < m)%nat -> eigen_solver m eigh -> (forall j, (j < m)%nat -> H r j = 0 /\ H j r = 0) -> 0 <= e ->
    p_reg (run_problem eigh fuel m D a) H e = Some B -> apply_mat m B v r = e * v r.
  Proof.
    intros Hr HE HH He EB. cbn [p_reg run_problem] in EB.
    destruct (String.eqb (d_reg D) "matrix_regulariser_function"); [injection EB as <-; apply identity_inert; assumption|].
    destruct (String.eqb (d_reg D) "matrix_regulariser_function_eigen_based"); [|discriminate].
    injection EB as <-. apply eigen_inert; assumption.
  Qed.

  Lemma zero_stays model reg meth n ko ki nzo nzi c O x0 r : In model ["dcm"; "dcm_exp"]%string -> In meth descent_methods ->
    o_method O = method_of_string meth -> o_regularise O = true -> 0 < o_regularise_eps O -> 0 <= o_tol O ->
    linear_solver (2 * n) linsolve -> eigen_solver (2 * n) eigh -> zero_constraint n nzo nzi r ->
    accepted d_dispatch model meth reg (fun D => forall x k ns ds als,
      solver (run_numerics linsolve ok (2 * n)) (run_problem eigh fuel (2 * n) D (A5d n ko ki nzo nzi c)) O x0 = Full x k ns ds als -> x r = x0 r).
  Proof.
    intros Hmo Hme HM HR HE HT HL HEi Hz.
    assert (Hr : (r < 2 * n)%nat) by (destruct Hz as [[? _]|[? _]]; lia).
    assert (Hz' : (r < n)%nat /\ ~ In r nzo \/ (n <= r)%nat /\ ~ In (r - n)%nat nzi) by (destruct Hz as [?|[? ?]]; [left; assumption|right; split; [lia|assumption]]).
    destruct Hmo as [<-|[<-|[]]]; destruct Hme as [<-|[<-|[]]]; eexists; (split; [reflexivity|]); intros x k ns ds als Hrun;
      (match type of Hrun with solver _ ?P' _ _ = _ => refine (inert_run linsolve ok (2 * n) P' O r Hr HR HE HT _ _ x0 x k ns ds als Hrun) end).
    all: try (left; exact HM).
    all: try (right; split; [exact HM|]; split; [exact HL|]; intros z H HH e B v He HB;
      match type of HH with p_jac_m (run_problem _ _ _ ?D' ?a') _ = _ => refine (regularisers_inert D' a' (2 * n) r H e B v Hr HEi _ He HB) end;
      first [assert (E : Some (fun i j => - loglikelihood_hessian_dcm n ko ki nzo nzi c z i j) = Some H) by exact (f_equal Some (proj2 (guarded_mat (2 * n) (dcm_divisors n nzo nzi z) (loglikelihood_hessian_dcm n ko ki nzo nzi c z) H HH)))
             |assert (E : Some (fun i j => - loglikelihood_hessian_dcm_exp n nzo nzi c z i j) = Some H) by exact (eq_trans (eq_sym (real_mat_fin (2 * n) _)) HH)];
      injection E as <-; intros j _;
      destruct (hessian_dcm_inert n ko ki nzo nzi c z r j Hz') as [[Z1 Z2] [Z3 Z4]]; rewrite ?Z1, ?Z2, ?Z3, ?Z4; split; ring).
    all: intros z f Hf;
      first [assert (E : Some (fun q => - loglikelihood_prime_dcm n ko ki nzo nzi c z q) = Some f) by exact (f_equal Some (proj2 (guarded_vec (2 * n) (dcm_divisors n nzo nzi z) (loglikelihood_prime_dcm n ko ki nzo nzi c z) f Hf)))
            |assert (E : Some (fun q => - loglikelihood_prime_dcm_exp n ko ki nzo nzi c z q) = Some f) by exact (eq_trans (eq_sym (real_vec_fin (2 * n) _)) Hf)];
      injection E as <-; destruct (prime_dcm_inert n ko ki nzo nzi c z r Hz') as [Z1 Z2]; rewrite ?Z1, ?Z2; ring.
  Qed.
End Directed.
