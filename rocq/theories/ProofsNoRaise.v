(** Calls that cannot raise: the descent methods with the regularisation that solve_tool
    always requests. *)
From Coq Require Import Reals List Arith Bool String Lia Lra.
From Verif Require Import Base SpecGraph SpecDirected SpecLinsearch SpecSolver SpecDispatch SpecGuess SpecRun SpecTool SpecSolve SpecReach SpecReachTool SpecIsolated SpecEnsemble
  ModelCM ModelDCM ModelNetwork ModelLinsearch ModelSolver ModelDispatch ModelGuess ModelRun ModelSolve ModelTool.
From Verif Require Import ProofsIEEE ProofsRegular ProofsLinsearch ProofsMainLinsearch ProofsSolver ProofsRun ProofsIterates ProofsEntries ProofsAscent ProofsAscentU ProofsGuess ProofsSolveU ProofsSolveD ProofsTool ProofsToolD
  ProofsPSDModels ProofsStart ProofsEvaluates WitnessTool.
Import ListNotations SpecLinsearch.
Local Open Scope R_scope.

Section Total.
  Variables (linsolve : (nat -> nat -> R) -> (nat -> R) -> option (nat -> R)) (ok : (nat -> nat -> R) -> bool)
    (eigh : (nat -> nat -> R) -> (nat -> R) * (nat -> nat -> R)) (m : nat) (P : problem (nat -> R) (nat -> nat -> R) R) (O : options R) (dom : (nat -> R) -> Prop).
  Local Notation N := (run_numerics linsolve ok m).
  Hypothesis HR : o_regularise O = true.
  Hypothesis He : 0 < o_regularise_eps O.
  Hypothesis Ht : 0 <= o_tol O.
  Hypothesis HV : o_verbose O = true -> forall H, ok H = true.
  Hypothesis HM : o_method O = Newton \/ o_method O = QuasiNewton.
  Hypothesis Hfun : forall x, dom x -> exists f, p_fun P x = Some f.
  Hypothesis Hquasi : o_method O = QuasiNewton -> forall x, dom x -> exists h, p_jac_v P x = Some h.
  Hypothesis Hnewton : o_method O = Newton -> solves_definite m linsolve /\ eigen_solver m eigh /\ forall x, dom x -> exists H, p_jac_m P x = Some H /\
    ((forall e, p_reg P H e = Some (matrix_regulariser_function_eigen_based eigh m H e)) \/
     (forall e, p_reg P H e = Some (matrix_regulariser_function H e)) /\ forall v, 0 <= qform m H v).
  Hypothesis Hlin : forall x dx f, dom x -> if o_linsearch O then exists al, p_lin_nq P x dx (/ 2) 1 f = Some al /\ dom (axpy x al dx) else dom (axpy x 1 dx).

  Lemma newton_exists s : o_method O = Newton -> dom (s_x s) -> p_fun P (s_x s) = Some (s_f s) -> 0 < norm2 m (s_f s) -> exists dx, solver_dx N P O s = Some dx.
  Proof.
    intros HN Hd Hf Hn. destruct (norm_positive _ _ Hn) as [i0 [Hi0 Hf0]]. destruct (Hnewton HN) as (HD & HE & HH). destruct (HH _ Hd) as (H & EH & Hreg).
    assert (E : 0 < vmaxabs N (s_f s) * o_regularise_eps O).
    { apply Rmult_lt_0_compat; [|exact He]. apply (largest_pos m (s_f s)); [apply vmaxabs_largest; lia|exists i0; auto]. }
    assert (V : forall B, o_verbose O && negb (ok B) = false).
    { intros B. destruct (o_verbose O) eqn:EV; [rewrite HV by reflexivity|]; reflexivity. }
    unfold solver_dx. rewrite HN, EH. cbn [sbind eigh_ok run_numerics]. rewrite V, HR, Hf. cbn [sbind]. change (smul N ?a ?b) with (a * b).
    set (eps := vmaxabs N (s_f s) * o_regularise_eps O) in *.
    assert (HB : exists B, p_reg P H eps = Some B /\ symmetric m B /\ forall v, eps * scalar m v v <= qform m B v).
    { destruct Hreg as [Er|[Er Hp]]; rewrite Er; eexists; (split; [reflexivity|]).
      - split; [apply eigen_sym|]. intros v. apply eigen_qform. apply HE. intros i j _ _. unfold symmetrise. ring.
      - destruct (regulariser_spec m H eps) as [Hs Hq]. split; [exact Hs|]. intros v. rewrite Hq. specialize (Hp v). lra. }
    destruct HB as (B & EB & Hs & Hq). rewrite EB. cbn [sbind]. rewrite V. cbn [sbind lsolve run_numerics]. apply HD; [exact Hs|].
    intros w Hw. apply Rlt_le_trans with (2 := Hq w). apply Rmult_lt_0_compat; [exact E|apply scalar_pos; exact Hw].
  Qed.
  Lemma step_exists s : dom (s_x s) -> p_fun P (s_x s) = Some (s_f s) -> 0 < norm2 m (s_f s) ->
    exists s', solver_step N P O s = Some s' /\ dom (s_x s') /\ p_fun P (s_x s') = Some (s_f s') /\ s_norm s' = norm2 m (s_f s') /\ s_n s' = S (s_n s).
  Proof.
    intros Hd Hf Hn.
    assert (HX : exists dx, solver_dx N P O s = Some dx).
    { destruct HM as [E|E]; [apply newton_exists; assumption|]. destruct (Hquasi E _ Hd) as (h & Eh). eexists. exact (proj1 (quasi_exists linsolve ok m P O s h E HR He Hf Hn Eh)). }
    destruct HX as (dx & Hdx). unfold solver_step. rewrite Hdx. cbn [sbind].
    assert (HA : exists al, solver_alfa N P O s dx = Some al /\ dom (axpy (s_x s) (fst al) dx)).
    { unfold solver_alfa. specialize (Hlin (s_x s) dx (s_f s) Hd). destruct (o_linsearch O); [|exists (1, s_alfas s); split; [reflexivity|exact Hlin]].
      destruct Hlin as (al & El & Dl). change (shalf N) with (/ 2). change (sone N) with 1.
      destruct HM as [E|E]; rewrite E, El; cbn [sbind]; eexists; (split; [reflexivity|exact Dl]). }
    destruct HA as (al & EA & Dx). rewrite EA. cbn [sbind]. destruct (Hfun _ Dx) as (f' & Ef'). change (vaxpy N) with axpy. rewrite Ef'. cbn [sbind].
    replace (o_verbose O && _) with false by (rewrite HR; destruct (o_method O), (o_verbose O); reflexivity).
    eexists. split; [reflexivity|]. cbn [s_x s_f s_norm s_n]. split; [exact Dx|]. split; [exact Ef'|]. split; [reflexivity|lia].
  Qed.
  Lemma loop_total fuel : forall s, (o_max_steps O - s_n s < fuel)%nat -> dom (s_x s) -> p_fun P (s_x s) = Some (s_f s) -> s_norm s = norm2 m (s_f s) ->
    exists v, solved_of (solver_loop N P O fuel s) = Some v /\ dom (o_x v).
  Proof.
    induction fuel as [|fuel IH]; intros s Hs Hd Hf Hnm; [lia|]. cbn [solver_loop]. destruct (solver_continue N O s) eqn:EC.
    - unfold solver_continue in EC. apply andb_prop in EC as [EC _]. apply andb_prop in EC as [EC1 EC2]. apply Nat.ltb_lt in EC2.
      assert (Hn : 0 < norm2 m (s_f s)).
      { rewrite Hnm in EC1. cbn [gtb run_numerics] in EC1. destruct (Rlt_dec _ _) as [L|]; [lra|discriminate]. }
      destruct (step_exists s Hd Hf Hn) as (s' & Es & D' & F' & N' & S'). rewrite Es. apply IH; try assumption. lia.
    - destruct (o_full_return O); eexists; (split; [reflexivity|exact Hd]).
  Qed.
  Lemma run_total x0 : dom x0 -> exists v, solved_of (solver N P O x0) = Some v /\ dom (o_x v).
  Proof.
    intros Hd. unfold solver, solver_init. destruct (Hfun _ Hd) as (f & Ef). rewrite Ef. cbn [sbind]. apply loop_total; cbn [s_x s_f s_norm s_n]; [lia|exact Hd|exact Ef|reflexivity].
  Qed.
End Total.

(** Finite values stay finite under the sign of the tables. *)
Lemma real_mat_opp m (h : nat -> nat -> R) : real_mat m (Some (VMat (fun i j => Fin (- h i j)))) = Some (fun i j => - h i j).
Proof.
  unfold real_mat. replace (forallb _ _) with true; [reflexivity|]. symmetry. apply forallb_forall. intros i _. change (fun j => Fin (- h i j)) with (fun j => Fin ((fun j => - h i j) j)).
  rewrite all_fin_fin. reflexivity.
Qed.
Lemma real_vec_opp m (h : nat -> R) : real_vec m (Some (VVec (fun i => Fin (- h i)))) = Some (fun i => - h i).
Proof. exact (all_fin_fin m (fun i => - h i)). Qed.
Lemma neg_vec f a x m (h : nat -> R) : run_entry (Pos f) a x = Some (VVec (fun i => Fin (h i))) -> real_vec m (run_entry (Neg f) a x) = Some (fun i => - h i).
Proof. intros E. rewrite (neg_entry _ _ _ _ E). exact (real_vec_opp m h). Qed.
Lemma neg_mat f a x m (h : nat -> nat -> R) : run_entry (Pos f) a x = Some (VMat (fun i j => Fin (h i j))) -> real_mat m (run_entry (Neg f) a x) = Some (fun i j => - h i j).
Proof. intros E. rewrite (neg_entry _ _ _ _ E). exact (real_mat_opp m h). Qed.

Section Models.
  Variables (linsolve : (nat -> nat -> R) -> (nat -> R) -> option (nat -> R)) (ok : (nat -> nat -> R) -> bool)
    (eigh : (nat -> nat -> R) -> (nat -> R) * (nat -> nat -> R)) (fuel : nat) (O : options R).
  (** What is asked of numpy and of the options. *)
  Definition reliable (m : nat) (meth : string) : Prop :=
    o_method O = method_of_string meth /\ o_regularise O = true /\ 0 < o_regularise_eps O /\ 0 <= o_tol O /\ (o_verbose O = true -> forall H, ok H = true) /\
    (meth = "newton"%string -> solves_definite m linsolve /\ eigen_solver m eigh).

  Lemma cm_total meth D n k c x0 : In meth descent_methods -> reliable n meth -> o_linsearch O = true -> u_dispatch "cm" meth None = inl D -> positive_upto n x0 ->
    exists v, solved_of (solver (run_numerics linsolve ok n) (run_problem eigh fuel n D (A2 n k c)) O x0) = Some v /\ positive_upto n (o_x v).
  Proof.
    intros Hme (HM & HR & He & Ht & HV & HN) HS HD Hx.
    assert (HF : forall x, positive_upto n x -> exists f, real_vec n (run_entry (d_fun D) (A2 n k c) x) = Some f).
    { intros x Hp. rewrite (fun_cm meth D n k c x Hme HD), cm_divisors_ok by exact Hp. eexists. reflexivity. }
    refine (run_total linsolve ok eigh n (run_problem eigh fuel n D (A2 n k c)) O (positive_upto n) HR He Ht HV _ HF _ _ _ x0 Hx).
    - destruct Hme as [<-|[<-|[]]]; rewrite HM; [left|right]; reflexivity.
    - intros E x Hp. destruct Hme as [<-|[<-|[]]]; [rewrite HM in E; discriminate|]. injection HD as <-. eexists. exact (neg_vec "loglikelihood_hessian_diag_cm" _ _ _ _ (e_ll_hess_diag_cm n k c x (cm_divisors_ok n x Hp))).
    - intros E. destruct Hme as [<-|[<-|[]]]; [|rewrite HM in E; discriminate]. destruct (HN eq_refl) as [N1 N2]. split; [exact N1|]. split; [exact N2|]. injection HD as <-.
      intros x Hp. eexists. split; [exact (neg_mat "loglikelihood_hessian_cm" _ _ _ _ (e_ll_hess_cm n k c x (cm_divisors_ok n x Hp)))|]. left. reflexivity.
    - intros x dx f Hp. rewrite HS.
      assert (EL : p_lin_nq (run_problem eigh fuel n D (A2 n k c)) x dx (/ 2) 1 f = Some (linsearch_fun_CM n (objective "loglikelihood_cm" (A2 n k c)) x dx (/ 2) 1 f)) by (destruct Hme as [<-|[<-|[]]]; injection HD as <-; reflexivity).
      rewrite EL. eexists. split; [reflexivity|]. exact (proj2 (CM_admissible n (objective "loglikelihood_cm" (A2 n k c)) x dx (/ 2) 1 f ltac:(lra) ltac:(lra) Hp)).
  Qed.
  Lemma dcm_total meth D n ko ki nzo nzi c x0 : In meth descent_methods -> reliable (2 * n) meth -> o_linsearch O = true -> d_dispatch "dcm" meth None = inl D ->
    index_list n nzo -> index_list n nzi -> dcm_dom n nzo nzi x0 ->
    exists v, solved_of (solver (run_numerics linsolve ok (2 * n)) (run_problem eigh fuel (2 * n) D (A5d n ko ki nzo nzi c)) O x0) = Some v /\ dcm_dom n nzo nzi (o_x v).
  Proof.
    intros Hme (HM & HR & He & Ht & HV & HN) HS HD Ho Hi Hx.
    assert (HF : forall x, dcm_dom n nzo nzi x -> exists f, real_vec (2 * n) (run_entry (d_fun D) (A5d n ko ki nzo nzi c) x) = Some f).
    { intros x Hp. rewrite (fun_dcm meth D n ko ki nzo nzi c x Hme HD), dcm_divisors_ok by exact Hp. eexists. reflexivity. }
    refine (run_total linsolve ok eigh (2 * n) (run_problem eigh fuel (2 * n) D (A5d n ko ki nzo nzi c)) O (dcm_dom n nzo nzi) HR He Ht HV _ HF _ _ _ x0 Hx).
    - destruct Hme as [<-|[<-|[]]]; rewrite HM; [left|right]; reflexivity.
    - intros E x Hp. destruct Hme as [<-|[<-|[]]]; [rewrite HM in E; discriminate|]. injection HD as <-. eexists.
      exact (neg_vec "loglikelihood_hessian_diag_dcm" _ _ _ _ (e_ll_hess_diag_dcm n ko ki nzo nzi c x (dcm_divisors_ok n nzo nzi x Hp))).
    - intros E. destruct Hme as [<-|[<-|[]]]; [|rewrite HM in E; discriminate]. destruct (HN eq_refl) as [N1 N2]. split; [exact N1|]. split; [exact N2|]. injection HD as <-.
      intros x Hp. eexists. split; [exact (neg_mat "loglikelihood_hessian_dcm" _ _ _ _ (e_ll_hess_dcm n ko ki nzo nzi c x (dcm_divisors_ok n nzo nzi x Hp)))|]. left. reflexivity.
    - intros x dx f Hp. rewrite HS.
      assert (EL : p_lin_nq (run_problem eigh fuel (2 * n) D (A5d n ko ki nzo nzi c)) x dx (/ 2) 1 f = Some (linsearch_fun_DCM (2 * n) (objective "loglikelihood_dcm" (A5d n ko ki nzo nzi c)) x dx (/ 2) 1 f)) by (destruct Hme as [<-|[<-|[]]]; injection HD as <-; reflexivity).
      rewrite EL. eexists. split; [reflexivity|]. exact (proj2 (DCM_admissible n nzo nzi (objective "loglikelihood_dcm" (A5d n ko ki nzo nzi c)) x dx (/ 2) 1 f ltac:(lra) ltac:(lra) Ho Hi Hp)).
  Qed.
  (** The exponential models accept every point; the line search is not needed. *)
  Lemma cm_exp_total meth D n k c x0 : In meth descent_methods -> reliable n meth -> u_dispatch "cm_exp" meth None = inl D -> (forall i, (i < n)%nat -> 1 <= c i) ->
    exists v, solved_of (solver (run_numerics linsolve ok n) (run_problem eigh fuel n D (A2 n k c)) O x0) = Some v.
  Proof.
    intros Hme (HM & HR & He & Ht & HV & HN) HD Hc.
    assert (HF : forall x : nat -> R, True -> exists f, real_vec n (run_entry (d_fun D) (A2 n k c) x) = Some f).
    { intros x _. rewrite (fun_cm_exp meth D n k c x Hme HD). eexists. reflexivity. }
    edestruct (run_total linsolve ok eigh n (run_problem eigh fuel n D (A2 n k c)) O (fun _ => True) HR He Ht HV) as (v & E & _); [|exact HF| | | |exact I|exists v; exact E].
    - destruct Hme as [<-|[<-|[]]]; rewrite HM; [left|right]; reflexivity.
    - intros E x Hp. destruct Hme as [<-|[<-|[]]]; [rewrite HM in E; discriminate|]. injection HD as <-. eexists. exact (neg_vec "loglikelihood_hessian_diag_cm_exp" _ _ _ _ (e_ll_hess_diag_cm_exp n k c x)).
    - intros E. destruct Hme as [<-|[<-|[]]]; [|rewrite HM in E; discriminate]. destruct (HN eq_refl) as [N1 N2]. split; [exact N1|]. split; [exact N2|]. injection HD as <-.
      intros x Hp. eexists. split; [exact (neg_mat "loglikelihood_hessian_cm_exp" _ _ _ _ (e_ll_hess_cm_exp n k c x))|]. right. split; [reflexivity|]. intros v. exact (cm_exp_psd n c x v Hc).
    - intros x dx f _. destruct (o_linsearch O); [|exact I]. destruct Hme as [<-|[<-|[]]]; injection HD as <-; eexists; (split; [reflexivity|exact I]).
  Qed.
  Lemma dcm_exp_total meth D n ko ki nzo nzi c x0 : In meth descent_methods -> reliable (2 * n) meth -> d_dispatch "dcm_exp" meth None = inl D ->
    index_list n nzo -> index_list n nzi -> (forall i, (i < n)%nat -> 1 <= c i) ->
    exists v, solved_of (solver (run_numerics linsolve ok (2 * n)) (run_problem eigh fuel (2 * n) D (A5d n ko ki nzo nzi c)) O x0) = Some v.
  Proof.
    intros Hme (HM & HR & He & Ht & HV & HN) HD Ho Hi Hc.
    assert (HF : forall x : nat -> R, True -> exists f, real_vec (2 * n) (run_entry (d_fun D) (A5d n ko ki nzo nzi c) x) = Some f).
    { intros x _. rewrite (fun_dcm_exp meth D n ko ki nzo nzi c x Hme HD). eexists. reflexivity. }
    edestruct (run_total linsolve ok eigh (2 * n) (run_problem eigh fuel (2 * n) D (A5d n ko ki nzo nzi c)) O (fun _ => True) HR He Ht HV) as (v & E & _); [|exact HF| | | |exact I|exists v; exact E].
    - destruct Hme as [<-|[<-|[]]]; rewrite HM; [left|right]; reflexivity.
    - intros E x Hp. destruct Hme as [<-|[<-|[]]]; [rewrite HM in E; discriminate|]. injection HD as <-. eexists. exact (neg_vec "loglikelihood_hessian_diag_dcm_exp" _ _ _ _ (e_ll_hess_diag_dcm_exp n ko ki nzo nzi c x)).
    - intros E. destruct Hme as [<-|[<-|[]]]; [|rewrite HM in E; discriminate]. destruct (HN eq_refl) as [N1 N2]. split; [exact N1|]. split; [exact N2|]. injection HD as <-.
      intros x Hp. eexists. split; [exact (neg_mat "loglikelihood_hessian_dcm_exp" _ _ _ _ (e_ll_hess_dcm_exp n ko ki nzo nzi c x))|]. right. split; [reflexivity|]. intros v. exact (dcm_exp_psd n nzo nzi c x v Ho Hi Hc).
    - intros x dx f _. destruct (o_linsearch O); [|exact I]. destruct Hme as [<-|[<-|[]]]; injection HD as <-; eexists; (split; [reflexivity|exact I]).
  Qed.
End Models.

(** * Whole calls of solve_tool *)
Lemma t_reliable e t m ls : In (t_method t) descent_methods -> 0 <= t_tol t -> quiet t e -> numpy_answers m t e ->
  reliable (v_linsolve e) (v_eigh_ok e) (v_eigh e) (t_options t (t_method t) ls) m (t_method t).
Proof.
  intros Hme Ht Hq HN. unfold reliable. cbn [t_options o_method o_regularise o_regularise_eps o_tol o_verbose]. split; [reflexivity|]. split; [reflexivity|].
  split; [lra|]. split; [exact Ht|]. split; [exact Hq|exact HN].
Qed.
Lemma tool_cm_completes e g t o nm : t_model t = "cm"%string -> In (t_method t) descent_methods -> t_linsearch t = true -> t_guess t = GStr nm -> In nm binary_names -> draws (v_rnd e) ->
  0 <= t_tol t -> quiet t e -> numpy_answers (u_length g "cm") t e -> us_beta o = None ->
  (forall i, (i < un_n g)%nat -> nth i (un_dseq g) O <> O) -> exists o', u_tool e g t o = (o', None).
Proof.
  intros Hm Hme Hls Hg Hnm Hr Ht Hq HN Hb Hd. destruct (u_start_cm_some g (v_rnd e) nm Hnm Hr) as (z & Hz).
  assert (Hp : positive_upto (u_length g "cm") z).
  { intros q Hq'. destruct (u_class_rep g q Hq') as (i & Hi & _ & E). assert (C : u_class g i = q) by (unfold u_class; apply nth_error_nth; exact E).
    rewrite <- C. exact (proj1 (start_cm_entries g (v_rnd e) nm z i Hnm Hr Hz Hi) (Hd i Hi)). }
  assert (HD : exists D, u_dispatch "cm" (t_method t) None = inl D) by (destruct Hme as [<-|[<-|[]]]; eexists; reflexivity). destruct HD as (D & HD).
  destruct (cm_total (v_linsolve e) (v_eigh_ok e) (v_eigh e) (v_fuel e) (t_options t (t_method t) true) (t_method t) D (u_length g "cm")
    (at_list (np_unique Nat.leb Nat.eqb (un_dseq g))) (at_list (np_counts Nat.leb Nat.eqb (un_dseq g))) z Hme (t_reliable e t _ true Hme Ht Hq HN) eq_refl HD Hp) as (v & Hv & _).
  apply (u_completes e g t o z D v); rewrite ?Hm, ?Hg; [cbn; tauto|exact Hb|exact Hz|exact HD|].
  unfold u_result, u_solver, solve_with. rewrite Hm, Hg. ProofsSolveU.names. rewrite HD, (args_cm g "cm" None ltac:(cbn; tauto)), Hz, Hls. exact Hv.
Qed.
(** The call completes exactly when every node has a link. *)
Lemma tool_cm_iff e g t o nm : t_model t = "cm"%string -> In (t_method t) descent_methods -> t_linsearch t = true -> t_guess t = GStr nm -> In nm binary_names -> draws (v_rnd e) ->
  0 <= t_tol t -> quiet t e -> numpy_answers (u_length g "cm") t e -> us_beta o = None ->
  (snd (u_tool e g t o) = None <-> forall i, (i < un_n g)%nat -> nth i (un_dseq g) O <> O).
Proof.
  intros Hm Hme Hls Hg Hnm Hr Ht Hq HN Hb. split.
  - intros H i Hi Z. assert (E : snd (u_tool e g t o) = Some ESolver) by (apply (isolated_raises_cm e g t o nm Hm Hme Hg Hnm Hr); exists i; split; assumption). congruence.
  - intros H. destruct (tool_cm_completes e g t o nm Hm Hme Hls Hg Hnm Hr Ht Hq HN Hb H) as (o' & ->). reflexivity.
Qed.
Lemma tool_cm_exp_completes e g t o z : t_model t = "cm_exp"%string -> In (t_method t) descent_methods -> u_start g "cm_exp" (v_rnd e) (t_guess t) = Some z ->
  0 <= t_tol t -> quiet t e -> numpy_answers (u_length g "cm_exp") t e -> us_beta o = None -> exists o', u_tool e g t o = (o', None).
Proof.
  intros Hm Hme Hz Ht Hq HN Hb.
  assert (HD : exists D, u_dispatch "cm_exp" (t_method t) None = inl D) by (destruct Hme as [<-|[<-|[]]]; eexists; reflexivity). destruct HD as (D & HD).
  assert (Hc : forall q, (q < u_length g "cm_exp")%nat -> 1 <= at_list (np_counts Nat.leb Nat.eqb (un_dseq g)) q).
  { intros q Hq'. destruct (u_class_rep g q Hq') as (i & Hi & _ & E). assert (C : u_class g i = q) by (unfold u_class; apply nth_error_nth; exact E). rewrite <- C. apply u_count_ge. exact Hi. }
  destruct (cm_exp_total (v_linsolve e) (v_eigh_ok e) (v_eigh e) (v_fuel e) (t_options t (t_method t) (t_linsearch t)) (t_method t) D (u_length g "cm_exp")
    (at_list (np_unique Nat.leb Nat.eqb (un_dseq g))) (at_list (np_counts Nat.leb Nat.eqb (un_dseq g))) z Hme (t_reliable e t _ _ Hme Ht Hq HN) HD Hc) as (v & Hv).
  apply (u_completes e g t o z D v); rewrite ?Hm; [cbn; tauto|exact Hb|exact Hz|exact HD|].
  unfold u_result, u_solver, solve_with. rewrite Hm. ProofsSolveU.names. rewrite HD, (args_cm g "cm_exp" None ltac:(cbn; tauto)), Hz. exact Hv.
Qed.
(** The starting point of dcm is finite. *)
Lemma d_start_dcm_some g rnd nm : d_paired g -> In nm binary_names -> draws rnd -> balanced (dn_out g) (dn_in g) -> exists x0, d_start g "dcm" rnd (GStr nm) = Some x0.
Proof.
  intros HP Hn Hr Hb. unfold d_start. ProofsSolveU.names. destruct (guess_dcm_inside (dn_out g) (dn_in g) rnd nm Hn Hr (eq_sym HP) Hb) as (s & Es & Hs).
  rewrite Es. cbn [start_of]. apply all_fin_some'. change (d_length g "dcm") with (2 * d_classes_n g)%nat. intros q Hq. destruct (lt_dec q (d_classes_n g)) as [L|L].
  - destruct (d_class_error g q HP L) as (i & Hi & Eq & Eo & Ei & Er). destruct (Hs i _ _ q Eo Ei Er) as (x & y & X1 & _). exists x. exact X1.
  - destruct (d_class_error g (q - d_classes_n g) HP ltac:(lia)) as (i & Hi & Eq & Eo & Ei & Er). destruct (Hs i _ _ _ Eo Ei Er) as (x & y & _ & Y1 & _). exists y.
    fold (d_red g) in Y1. fold (d_classes_n g) in Y1. rewrite <- Y1. f_equal. lia.
Qed.
Lemma tool_dcm_completes e g t o nm : d_paired g -> balanced (dn_out g) (dn_in g) -> t_model t = "dcm"%string -> In (t_method t) descent_methods -> t_linsearch t = true ->
  t_guess t = GStr nm -> In nm binary_names -> draws (v_rnd e) ->
  0 <= t_tol t -> quiet t e -> numpy_answers (d_length g "dcm") t e -> ds_bo o = None -> exists o', d_tool e g t o = (o', None).
Proof.
  intros HP HB Hm Hme Hls Hg Hnm Hr Ht Hq HN Hb. destruct (d_start_dcm_some g (v_rnd e) nm HP Hnm Hr HB) as (z & Hz).
  pose proof (directed_start_inside g (v_rnd e) nm z HP Hnm Hr HB Hz) as [Hp _]. destruct (d_classes g HP) as (_ & HO & HI).
  assert (HD : exists D, d_dispatch "dcm" (t_method t) None = inl D) by (destruct Hme as [<-|[<-|[]]]; eexists; reflexivity). destruct HD as (D & HD).
  destruct (dcm_total (v_linsolve e) (v_eigh_ok e) (v_eigh e) (v_fuel e) (t_options t (t_method t) true) (t_method t) D (d_classes_n g)
    (at_list (rnz_dseq_out (d_red g))) (at_list (rnz_dseq_in (d_red g))) (nz_index_out (d_red g)) (nz_index_in (d_red g)) (at_list (r_multiplicity (d_red g))) z
    Hme (t_reliable e t _ true Hme Ht Hq HN) eq_refl HD (nonzero_index _ _ _ HO) (nonzero_index _ _ _ HI) Hp) as (v & Hv & _).
  apply (d_completes e g t o z D v); rewrite ?Hm, ?Hg; [cbn; tauto|exact Hb|exact Hz|exact HD|].
  unfold d_result, d_solver, solve_with. rewrite Hm, Hg. ProofsSolveU.names. rewrite HD, (dargs_dcm g "dcm" None ltac:(cbn; tauto)), Hz, Hls. exact Hv.
Qed.
Lemma tool_dcm_exp_completes e g t o z : d_paired g -> t_model t = "dcm_exp"%string -> In (t_method t) descent_methods -> d_start g "dcm_exp" (v_rnd e) (t_guess t) = Some z ->
  0 <= t_tol t -> quiet t e -> numpy_answers (d_length g "dcm_exp") t e -> ds_bo o = None -> exists o', d_tool e g t o = (o', None).
Proof.
  intros HP Hm Hme Hz Ht Hq HN Hb. destruct (d_classes g HP) as (_ & HO & HI).
  assert (HD : exists D, d_dispatch "dcm_exp" (t_method t) None = inl D) by (destruct Hme as [<-|[<-|[]]]; eexists; reflexivity). destruct HD as (D & HD).
  assert (Hc : forall q, (q < d_classes_n g)%nat -> 1 <= at_list (r_multiplicity (d_red g)) q).
  { intros q Hq'. destruct (d_class_rep g q HP Hq') as (i & Hi & C). rewrite <- C. apply d_count_ge; assumption. }
  destruct (dcm_exp_total (v_linsolve e) (v_eigh_ok e) (v_eigh e) (v_fuel e) (t_options t (t_method t) (t_linsearch t)) (t_method t) D (d_classes_n g)
    (at_list (rnz_dseq_out (d_red g))) (at_list (rnz_dseq_in (d_red g))) (nz_index_out (d_red g)) (nz_index_in (d_red g)) (at_list (r_multiplicity (d_red g))) z
    Hme (t_reliable e t _ _ Hme Ht Hq HN) HD (nonzero_index _ _ _ HO) (nonzero_index _ _ _ HI) Hc) as (v & Hv).
  apply (d_completes e g t o z D v); rewrite ?Hm; [cbn; tauto|exact Hb|exact Hz|exact HD|].
  unfold d_result, d_solver, solve_with. rewrite Hm. ProofsSolveU.names. rewrite HD, (dargs_dcm g "dcm_exp" None ltac:(cbn; tauto)), Hz. exact Hv.
Qed.

(** * Whatever the starting point *)
Lemma start_cm_zero g rnd s z i : u_start g "cm" rnd s = Some z -> (i < un_n g)%nat -> nth i (un_dseq g) O = O -> z (u_class g i) = 0.
Proof.
  intros H Hi Z. destruct (u_class_error g i Hi) as (_ & _ & L). pose proof (u_class_degree g i Hi) as Q. unfold at_list in Q. rewrite Z in Q. change (INR 0) with 0 in Q.
  unfold u_start in H. ProofsSolveU.names_in H. change (String.eqb "cm" "cm_exp") with false in H. unfold set_initial_guess_cm, degree_reduction_und in H.
  cbv zeta in H. unfold gbind in H. destruct (match s with GArr m a => _ | GStr s0 => _ | GOther => _ end) as [r|]; [|discriminate]. cbn [start_of g_x0] in H.
  assert (W : where_zero (fun i => INR (nth i (np_unique Nat.leb Nat.eqb (un_dseq g)) O)) 0 r (u_class g i) = Fin 0).
  { unfold where_zero. rewrite Q. destruct (Req_EM_T 0 0); [reflexivity|contradiction]. }
  pose proof (all_fin_inv _ _ _ H (u_class g i) L) as E. destruct s; rewrite W in E; injection E as E; symmetry; exact E.
Qed.
Lemma isolated_never_returns e g t o : t_model t = "cm"%string -> In (t_method t) descent_methods -> (exists i, (i < un_n g)%nat /\ nth i (un_dseq g) O = O) ->
  snd (u_tool e g t o) <> None.
Proof.
  intros Hm Hme (i & Hi & Z). destruct (u_start g "cm" (v_rnd e) (t_guess t)) as [z|] eqn:Hz.
  - assert (HD : exists D, u_dispatch "cm" (t_method t) None = inl D) by (destruct Hme as [<-|[<-|[]]]; eexists; reflexivity). destruct HD as (D & HD).
    assert (E : snd (u_tool e g t o) = Some ESolver); [|rewrite E; discriminate].
    apply (u_raising_start e g t o z D (u_args_cm g)); rewrite ?Hm; try assumption; [cbn; tauto|reflexivity|].
    unfold u_args_cm. rewrite (fun_cm _ D _ _ _ z Hme HD). destruct (cm_divisors _ z) eqn:G; [|reflexivity]. exfalso.
    unfold cm_divisors in G. apply andb_prop in G as [G _]. unfold every in G. rewrite forallb_forall in G.
    destruct (u_class_error g i Hi) as (_ & _ & L). specialize (G (u_class g i) ltac:(apply in_seq; split; [lia|exact L])).
    rewrite (start_cm_zero g _ _ z i Hz Hi Z) in G. unfold nonzero in G. destruct (Req_EM_T 0 0); [discriminate|contradiction].
  - unfold u_tool, u_call, u_solve_tool, u_call_adjacency. cbn [c_model c_method c_guess c_out]. rewrite Hm, Hz. ProofsSolveU.names.
    unfold u_solve_problem, u_initialize, u_set_guess. cbn [andthen raising fst snd]. discriminate.
Qed.
