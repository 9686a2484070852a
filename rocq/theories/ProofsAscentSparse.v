(** Quasi-Newton runs of crema-sparse: the objective is a number exactly on the domain of
    the dense log-likelihood, so the runs climb that log-likelihood. *)
From Coq Require Import Reals List Arith Bool String Lia Lra.
From Verif Require Import Base SpecDeriv SpecGraph SpecEnsemble SpecWeighted SpecDirected SpecCReMa SpecLinsearch SpecDispatch SpecRun
  ModelCM ModelECM ModelDCM ModelDECM ModelCReMa ModelIEEE ModelLinsearch ModelSolver ModelDispatch ModelRun.
From Verif Require Import ProofsEnsemble ProofsCReMa ProofsMainCReMa ProofsDirCReMa ProofsRegular ProofsLinsearch ProofsMainLinsearch ProofsDispatch ProofsDispatchU ProofsSolver ProofsRun ProofsIterates
  ProofsAscent ProofsIEEE ProofsEntries ProofsGuarded ProofsAscentU.
Import ListNotations.
Local Open Scope R_scope.

(** A loop keeps an invariant; once bad, it stays bad; one bad pass makes it bad. *)
Section Loops.
  Variables (P B : fval -> Prop) (body : nat -> fval -> option fval).
  Lemma olloop_keeps l a r : (forall i u v, In i l -> P u -> body i u = Some v -> P v) -> P a -> olloop l a body = Some r -> P r.
  Proof.
    unfold olloop, lloop. revert a. induction l as [|i l IH]; intros a H Ha E; cbn [fold_left] in E; [injection E as <-; exact Ha|].
    cbn [obind] in E. destruct (body i a) as [v|] eqn:Ev; [|exfalso; clear -E; induction l; [discriminate E|exact (IHl E)]].
    apply (IH v); [intros; eapply H; [right|..]; eassumption|eapply H; [left; reflexivity|..]; eassumption|exact E].
  Qed.
  Lemma olloop_hits l k a r : (forall i u v, In i l -> P u -> body i u = Some v -> P v) -> (forall i u v, In i l -> P u -> B u -> body i u = Some v -> B v) ->
    In k l -> (forall u v, P u -> body k u = Some v -> B v) -> P a -> olloop l a body = Some r -> B r.
  Proof.
    intros HP HB Hk Hh. assert (G : forall l a r, (forall i u v, In i l -> P u -> body i u = Some v -> P v) -> (forall i u v, In i l -> P u -> B u -> body i u = Some v -> B v) ->
      P a -> B a -> olloop l a body = Some r -> B r).
    { clear. intros l. unfold olloop, lloop. induction l as [|i l IH]; intros a r HP HB Pa Ba E; cbn [fold_left] in E; [injection E as <-; exact Ba|].
      cbn [obind] in E. destruct (body i a) as [v|] eqn:Ev; [|exfalso; clear -E; induction l; [discriminate E|exact (IHl E)]].
      apply (IH v); [intros; eapply HP; [right|..]; eassumption|intros j u w Hj; apply HB; right; exact Hj|apply (HP i a v (or_introl eq_refl) Pa Ev)|apply (HB i a v (or_introl eq_refl) Pa Ba Ev)|exact E]. }
    revert a HP HB Hk. induction l as [|i l IH]; intros a HP HB Hk Pa E; [destruct Hk|].
    unfold olloop, lloop in E. cbn [fold_left obind] in E. destruct (body i a) as [v|] eqn:Ev; [|exfalso; clear -E; induction l; [discriminate E|exact (IHl E)]].
    assert (Pv : P v) by (apply (HP i a v (or_introl eq_refl) Pa Ev)).
    destruct Hk as [->|Hk].
    - apply (G l v); [intros j u w Hj; apply HP; right; exact Hj|intros j u w Hj; apply HB; right; exact Hj|exact Pv|apply (Hh a v Pa Ev)|exact E].
    - apply (IH v); [intros j u w Hj; apply HP; right; exact Hj|intros j u w Hj; apply HB; right; exact Hj|exact Hk|exact Pv|exact E].
  Qed.
End Loops.
Lemma oloop_list {A} n (a : A) body : oloop n a body = olloop (seq 0 n) a body.
Proof.
  unfold oloop, olloop, lloop. induction n as [|n IH]; [reflexivity|]. rewrite loop_S, IH, seq_S, fold_left_app. reflexivity.
Qed.

(** One pass of the inner loops. *)
Definition sparse_term (aux : R) (g : R) (f : fval) : option fval :=
  obind (sdiv aux (1 + aux)) (fun v => if Rlt_dec 0 v then Some (fadd f (fmul v (flog g))) else Some f).
Lemma flog_notp g : flog g <> PInf.
Proof. unfold flog. destruct (Rlt_dec 0 g); [discriminate|]. destruct (Req_EM_T g 0); discriminate. Qed.
Lemma fmul_notp w g : 0 < w -> fmul w (flog g) <> PInf.
Proof.
  intros Hw. assert (Q := flog_notp g). destruct (flog g); cbn [fmul]; try congruence; destruct (Req_EM_T w 0); try congruence; destruct (Rlt_dec 0 w); congruence || contradiction.
Qed.
Lemma sparse_term_notp aux g u v : u <> PInf -> sparse_term aux g u = Some v -> v <> PInf.
Proof.
  unfold sparse_term. intros Hu. destruct (sdiv aux (1 + aux)) as [w|]; [|discriminate]. cbn [obind]. destruct (Rlt_dec 0 w) as [L|L]; intros E; injection E as <-; [|exact Hu].
  apply (finor_fadd u); [exact Hu|apply fmul_notp; exact L].
Qed.
Lemma sparse_term_bad aux g u v : bad u -> sparse_term aux g u = Some v -> bad v.
Proof.
  unfold sparse_term. intros Hu. destruct (sdiv aux (1 + aux)) as [w|]; [|discriminate]. cbn [obind]. destruct (Rlt_dec 0 w) as [L|L]; intros E; injection E as <-; [|exact Hu].
  apply bad_fadd; [exact Hu|apply fmul_notp; exact L].
Qed.
Lemma sparse_term_hit aux g u v : 0 <= aux -> aux <> 0 -> ~ 0 < g -> u <> PInf -> sparse_term aux g u = Some v -> bad v.
Proof.
  unfold sparse_term. intros H0 Hz Hg Hu. unfold sdiv. destruct (Req_EM_T (1 + aux) 0); [discriminate|]. cbn [obind].
  assert (Q : 0 < aux / (1 + aux)) by (apply Rdiv_lt_0_compat; lra). destruct (Rlt_dec 0 (aux / (1 + aux))) as [L|L]; [|contradiction]. intros E; injection E as <-.
  apply bad_fadd_r; [exact Hu|]. apply fmul_bad; [lra|]. apply flog_bad. exact Hg.
Qed.
Lemma fsub_fin_notp u a : u <> PInf -> fsub u (Fin a) <> PInf.
Proof. destruct u; cbn; congruence. Qed.
Lemma fsub_fin_bad u a : bad u -> bad (fsub u (Fin a)).
Proof. intros [->| ->]; [left|right]; reflexivity. Qed.

Lemma fsparse_bad n s x b i j r : (forall i, (i < n)%nat -> 0 <= x i) -> (j < i < n)%nat -> x i * x j <> 0 -> ~ 0 < b i + b j ->
  floglikelihood_crema_undirected_sparse n s x b = Some r -> bad r.
Proof.
  intros Hx Hij Hz Hg. unfold floglikelihood_crema_undirected_sparse. rewrite oloop_list. apply (olloop_hits (fun v => v <> PInf) bad) with (k := i).
  - intros i' u v _ Hu. cbv zeta. rewrite oloop_list. apply (olloop_keeps (fun v => v <> PInf)); [|apply fsub_fin_notp; exact Hu].
    intros j' u' v' _ Hu'. apply (sparse_term_notp (x i' * x j') (b i' + b j')). exact Hu'.
  - intros i' u v _ Hu Bu. cbv zeta. rewrite oloop_list. apply (olloop_keeps bad); [|apply fsub_fin_bad; exact Bu].
    intros j' u' v' _ Hu'. apply (sparse_term_bad (x i' * x j') (b i' + b j')). exact Hu'.
  - apply in_seq. lia.
  - intros u v Hu. cbv zeta. rewrite oloop_list. apply (olloop_hits (fun v => v <> PInf) bad) with (k := j).
    + intros j' u' v' _ Hu'. apply (sparse_term_notp (x i * x j') (b i + b j')). exact Hu'.
    + intros j' u' v' _ _ Hu'. apply (sparse_term_bad (x i * x j') (b i + b j')). exact Hu'.
    + apply in_seq. lia.
    + intros u' v' Hu'. apply (sparse_term_hit (x i * x j) (b i + b j)); [apply Rmult_le_pos; apply Hx; lia|exact Hz|exact Hg|exact Hu'].
    + apply fsub_fin_notp. exact Hu.
  - discriminate.
Qed.
Lemma lloop_keeps (P : fval -> Prop) l (g : nat -> fval -> fval) a : (forall i u, P u -> P (g i u)) -> P a -> P (lloop l a g).
Proof. intros H. unfold lloop. revert a. induction l as [|i l IH]; intros a Ha; [exact Ha|]. apply IH, H, Ha. Qed.
Lemma fdir_sparse_bad n so si x y nzo nzi b i j r : In i nzo -> In j nzi -> i <> j -> 0 <= x i * y j -> x i * y j <> 0 -> ~ 0 < b i + b (j + n)%nat ->
  floglikelihood_crema_directed_sparse n so si x y nzo nzi b = Some r -> bad r.
Proof.
  intros Ii Ij N H0 Hz Hg. unfold floglikelihood_crema_directed_sparse. intros E.
  match type of E with obind ?o _ = _ => destruct o as [q|] eqn:Eq; [|discriminate E] end. cbn [obind] in E. injection E as <-.
  apply lloop_keeps; [intros k u Hu; apply fsub_fin_bad; exact Hu|]. revert Eq. apply (olloop_hits (fun v => v <> PInf) bad) with (k := i).
  - intros i' u v _ Hu. cbv zeta. apply (olloop_keeps (fun v => v <> PInf)); [|apply fsub_fin_notp; exact Hu].
    intros j' u' v' _ Hu'. destruct (negb (Nat.eqb i' j')); [|intros E; injection E as <-; exact Hu']. apply (sparse_term_notp (x i' * y j') (b i' + b (j' + n)%nat)). exact Hu'.
  - intros i' u v _ Hu Bu. cbv zeta. apply (olloop_keeps bad); [|apply fsub_fin_bad; exact Bu].
    intros j' u' v' _ Hu'. destruct (negb (Nat.eqb i' j')); [|intros E; injection E as <-; exact Hu']. apply (sparse_term_bad (x i' * y j') (b i' + b (j' + n)%nat)). exact Hu'.
  - exact Ii.
  - intros u v Hu. cbv zeta. apply (olloop_hits (fun v => v <> PInf) bad) with (k := j).
    + intros j' u' v' _ Hu'. destruct (negb (Nat.eqb i j')); [|intros E; injection E as <-; exact Hu']. apply (sparse_term_notp (x i * y j') (b i + b (j' + n)%nat)). exact Hu'.
    + intros j' u' v' _ _ Hu'. destruct (negb (Nat.eqb i j')); [|intros E; injection E as <-; exact Hu']. apply (sparse_term_bad (x i * y j') (b i + b (j' + n)%nat)). exact Hu'.
    + exact Ij.
    + intros u' v' Hu'. rewrite (proj2 (Nat.eqb_neq i j) N). cbn [negb]. apply (sparse_term_hit (x i * y j) (b i + b (j + n)%nat)); assumption.
    + apply fsub_fin_notp. exact Hu.
  - discriminate.
Qed.

(** A number comes out only inside the domain. *)
Lemma sparse_objective_dom n s x b : (forall i, (i < n)%nat -> 0 <= x i) ->
  objective "loglikelihood_crema_undirected_sparse" (A3 n s (Factors1 x)) b <> NaN -> objective "loglikelihood_crema_undirected_sparse" (A3 n s (Factors1 x)) b <> MInf ->
  crema_dom (triu_edges n (pmatrix_cm x)) b.
Proof.
  intros Hx. change (objective "loglikelihood_crema_undirected_sparse" (A3 n s (Factors1 x)) b) with
    (match obind (floglikelihood_crema_undirected_sparse n s x b) fnum with Some (VNum v) => v | _ => NaN end).
  intros H1 H2 i j w Hin. apply in_triu in Hin. destruct Hin as (L & -> & Z). unfold pmatrix_cm in Z. destruct (Nat.ltb_spec i j) as [L'|L']; [|exfalso; apply Z; rewrite (proj2 (Nat.ltb_ge j i)) by lia; reflexivity].
  cbv zeta in Z. destruct (Rlt_dec 0 (b i + b j)) as [H|H]; [exact H|exfalso].
  destruct (floglikelihood_crema_undirected_sparse n s x b) as [r|] eqn:E; [|apply H1; reflexivity]. cbn [obind fnum] in H1, H2.
  destruct (fsparse_bad n s x b j i r Hx ltac:(lia)) as [B|B]; [| |exact E|apply H1; exact B|apply H2; exact B].
  - intros Z'. apply Z. rewrite (Rmult_comm (x i)), Z'. unfold Rdiv. ring.
  - rewrite Rplus_comm. exact H.
Qed.
Lemma dir_sparse_objective_dom n so si x y nzo nzi b : (forall i, (i < n)%nat -> 0 <= x i) -> (forall i, (i < n)%nat -> 0 <= y i) ->
  nonzero_list n so nzo -> nonzero_list n si nzi -> (forall i, (i < n)%nat -> (x i <> 0 <-> so i <> 0)) -> (forall i, (i < n)%nat -> (y i <> 0 <-> si i <> 0)) ->
  objective "loglikelihood_crema_directed_sparse" (A5c n so si (Factors2 x y) nzo nzi) b <> NaN -> objective "loglikelihood_crema_directed_sparse" (A5c n so si (Factors2 x y) nzo nzi) b <> MInf ->
  crema_dir_dom n (all_edges n (dcm_prob x y)) b.
Proof.
  intros Hx Hy Ho Hi Cx Cy. change (objective "loglikelihood_crema_directed_sparse" (A5c n so si (Factors2 x y) nzo nzi) b) with
    (match obind (floglikelihood_crema_directed_sparse n so si x y nzo nzi b) fnum with Some (VNum v) => v | _ => NaN end).
  intros H1 H2 i j w Hin. apply in_all in Hin. destruct Hin as (Li & Lj & -> & Z). unfold dcm_prob in Z. destruct (Nat.eqb_spec i j) as [|N]; [exfalso; apply Z; reflexivity|].
  destruct (Rlt_dec 0 (b i + b (j + n)%nat)) as [H|H]; [exact H|exfalso].
  destruct (floglikelihood_crema_directed_sparse n so si x y nzo nzi b) as [r|] eqn:E; [|apply H1; reflexivity]. cbn [obind fnum] in H1, H2.
  assert (Zx : x i <> 0) by (intros Z'; apply Z; rewrite Z'; unfold Rdiv; ring). assert (Zy : y j <> 0) by (intros Z'; apply Z; rewrite Z'; unfold Rdiv; ring).
  destruct (fdir_sparse_bad n so si x y nzo nzi b i j r) as [B|B]; [| |exact N| | |exact H|exact E|apply H1; exact B|apply H2; exact B].
  - apply (proj2 Ho). split; [exact Li|]. apply Cx; assumption.
  - apply (proj2 Hi). split; [exact Lj|]. apply Cy; assumption.
  - apply Rmult_le_pos; [apply Hx|apply Hy]; assumption.
  - apply Rmult_integral_contrapositive; split; assumption.
Qed.

Section Runs.
  Variables (linsolve : (nat -> nat -> R) -> (nat -> R) -> option (nat -> R)) (ok : (nat -> nat -> R) -> bool)
    (eigh : (nat -> nat -> R) -> (nat -> R) * (nat -> nat -> R)) (fuel : nat).
  (** A quasi-Newton run uses neither the linear solver nor the eigensolver. *)
  Lemma quasi_ascends m D a O (dom : (nat -> R) -> Prop) (L : (nat -> R) -> R) x0 x k ns ds als : documented O "quasinewton" ->
    (forall x dx f al, dom x -> p_lin_nq (run_problem eigh fuel m D a) x dx (/ 2) 1 f = Some al ->
      0 < al <= 1 /\ (al <= (/ 2) ^ 50 \/ dom (moved x al dx) /\ L x - / 10000 * al * SpecLinsearch.scalar m f dx < L (moved x al dx))) ->
    dom x0 -> solver (run_numerics linsolve ok m) (run_problem eigh fuel m D a) O x0 = Full x k ns ds als ->
    (forall al, In al als -> (/ 2) ^ 50 < al) ->
    (dom x /\ (k <> 0%nat -> L x0 < L x)) /\ (0 <= o_eps O -> INR (k - 1) * gain m O <= L x - L x0).
  Proof.
    intros (HM & HS & HR & He & Ht) Hsearch Hd Hrun Hals.
    apply (ascent linsolve ok m (run_problem eigh fuel m D a) O dom L (or_intror HM) HS Ht He Hsearch) with (ns := ns) (ds := ds) (als := als); try assumption.
    intros s f dx Hds Hsf Hf Hn Hdx. split; [apply (quasi_descends linsolve ok m (run_problem eigh fuel m D a) O s); try assumption; lra|].
    apply (quasi_slope linsolve ok m (run_problem eigh fuel m D a) O s); assumption.
  Qed.
  Lemma crema_sparse_climbs reg n s x O x0 :
    documented O "quasinewton" -> (forall i, (i < n)%nat -> 0 <= x i) -> crema_dom (triu_edges n (pmatrix_cm x)) x0 ->
    accepted u_dispatch "crema-sparse" "quasinewton" reg (run_climbs linsolve ok eigh fuel n (A3 n s (Factors1 x)) O (crema_dom (triu_edges n (pmatrix_cm x)))
      (loglikelihood_crema_undirected n s (triu_edges n (pmatrix_cm x))) x0).
  Proof.
    intros HO Hx Hd. eexists; (split; [reflexivity|]); intros w it ns ds als Hrun Hals.
    refine (quasi_ascends n _ (A3 n s (Factors1 x)) O (crema_dom (triu_edges n (pmatrix_cm x)))
      (loglikelihood_crema_undirected n s (triu_edges n (pmatrix_cm x))) x0 w it ns ds als HO _ Hd Hrun Hals).
    intros z dx f al Hz H. change (Some (linsearch_fun_crema_undirected n (objective "loglikelihood_crema_undirected_sparse" (A3 n s (Factors1 x))) z dx (/ 2) 1 f) = Some al) in H.
      inversion H as [E']. clear H E'. unfold linsearch_fun_crema_undirected, linsearch_fun_CM_exp.
      destruct (accepts n (objective "loglikelihood_crema_undirected_sparse" (A3 n s (Factors1 x))) z dx 1 f ltac:(lra)) as [A1 [H|H]]; (split; [exact A1|]); [left; exact H|right].
      apply (accepted_step n (objective "loglikelihood_crema_undirected_sparse" (A3 n s (Factors1 x))) (crema_dom (triu_edges n (pmatrix_cm x)))
        (loglikelihood_crema_undirected n s (triu_edges n (pmatrix_cm x))) z dx f _ Hz); [|intros q H1 H2 _; apply (sparse_objective_dom n s x q Hx H1 H2)|exact H].
      intros q Hq. apply (objective_at _ _ _ _ (e_ll_crema_sparse n s x q Hx Hq)).
  Qed.
  Lemma crema_dir_sparse_climbs reg n so si x y nzo nzi O x0 :
    documented O "quasinewton" -> (forall i, (i < n)%nat -> 0 <= x i) -> (forall i, (i < n)%nat -> 0 <= y i) ->
    nonzero_list n so nzo -> nonzero_list n si nzi -> (forall i, (i < n)%nat -> (x i <> 0 <-> so i <> 0)) -> (forall i, (i < n)%nat -> (y i <> 0 <-> si i <> 0)) ->
    crema_dir_dom n (all_edges n (dcm_prob x y)) x0 ->
    accepted d_dispatch "crema-sparse" "quasinewton" reg (run_climbs linsolve ok eigh fuel (2 * n) (A5c n so si (Factors2 x y) nzo nzi) O (crema_dir_dom n (all_edges n (dcm_prob x y)))
      (loglikelihood_crema_directed n so si (all_edges n (dcm_prob x y)) nzo nzi) x0).
  Proof.
    intros HO Hx Hy Ho Hi Cx Cy Hd. eexists; (split; [reflexivity|]); intros w it ns ds als Hrun Hals.
    refine (quasi_ascends (2 * n) _ (A5c n so si (Factors2 x y) nzo nzi) O (crema_dir_dom n (all_edges n (dcm_prob x y)))
      (loglikelihood_crema_directed n so si (all_edges n (dcm_prob x y)) nzo nzi) x0 w it ns ds als HO _ Hd Hrun Hals).
    intros z dx f al Hz H. change (Some (linsearch_fun_crema_directed (2 * n) (objective "loglikelihood_crema_directed_sparse" (A5c n so si (Factors2 x y) nzo nzi)) z dx (/ 2) 1 f) = Some al) in H.
      inversion H as [E']. clear H E'. unfold linsearch_fun_crema_directed, linsearch_fun_CM_exp.
      destruct (accepts (2 * n) (objective "loglikelihood_crema_directed_sparse" (A5c n so si (Factors2 x y) nzo nzi)) z dx 1 f ltac:(lra)) as [A1 [H|H]]; (split; [exact A1|]); [left; exact H|right].
      apply (accepted_step (2 * n) (objective "loglikelihood_crema_directed_sparse" (A5c n so si (Factors2 x y) nzo nzi)) (crema_dir_dom n (all_edges n (dcm_prob x y)))
        (loglikelihood_crema_directed n so si (all_edges n (dcm_prob x y)) nzo nzi) z dx f _ Hz); [|intros q H1 H2 _; apply (dir_sparse_objective_dom n so si x y nzo nzi q Hx Hy Ho Hi Cx Cy H1 H2)|exact H].
      intros q Hq. apply (objective_at _ _ _ _ (e_ll_crema_dir_sparse n so si x y nzo nzi q Hx Hy Ho Hi Cx Cy Hq)).
  Qed.
  Lemma crema_sparse_increases reg n s x O x0 :
    documented O "quasinewton" -> (forall i, (i < n)%nat -> 0 <= x i) -> crema_dom (triu_edges n (pmatrix_cm x)) x0 ->
    accepted u_dispatch "crema-sparse" "quasinewton" reg (run_increases linsolve ok eigh fuel n (A3 n s (Factors1 x)) O (crema_dom (triu_edges n (pmatrix_cm x)))
      (loglikelihood_crema_undirected n s (triu_edges n (pmatrix_cm x))) x0).
  Proof. intros. eapply accepted_weaken; [intros D; apply climbs_increases|]. apply crema_sparse_climbs; assumption. Qed.
  Lemma crema_sparse_settles reg n s x O x0 U :
    documented O "quasinewton" -> (forall i, (i < n)%nat -> 0 <= x i) -> crema_dom (triu_edges n (pmatrix_cm x)) x0 ->
    accepted u_dispatch "crema-sparse" "quasinewton" reg (run_settles linsolve ok eigh fuel n (A3 n s (Factors1 x)) O (crema_dom (triu_edges n (pmatrix_cm x)))
      (loglikelihood_crema_undirected n s (triu_edges n (pmatrix_cm x))) U x0).
  Proof. intros. eapply accepted_weaken; [intros D; apply climbs_settles|]. apply crema_sparse_climbs; assumption. Qed.
  Lemma crema_dir_sparse_increases reg n so si x y nzo nzi O x0 :
    documented O "quasinewton" -> (forall i, (i < n)%nat -> 0 <= x i) -> (forall i, (i < n)%nat -> 0 <= y i) ->
    nonzero_list n so nzo -> nonzero_list n si nzi -> (forall i, (i < n)%nat -> (x i <> 0 <-> so i <> 0)) -> (forall i, (i < n)%nat -> (y i <> 0 <-> si i <> 0)) ->
    crema_dir_dom n (all_edges n (dcm_prob x y)) x0 ->
    accepted d_dispatch "crema-sparse" "quasinewton" reg (run_increases linsolve ok eigh fuel (2 * n) (A5c n so si (Factors2 x y) nzo nzi) O (crema_dir_dom n (all_edges n (dcm_prob x y)))
      (loglikelihood_crema_directed n so si (all_edges n (dcm_prob x y)) nzo nzi) x0).
  Proof. intros. eapply accepted_weaken; [intros D; apply climbs_increases|]. apply crema_dir_sparse_climbs; assumption. Qed.
  Lemma crema_dir_sparse_settles reg n so si x y nzo nzi O x0 U :
    documented O "quasinewton" -> (forall i, (i < n)%nat -> 0 <= x i) -> (forall i, (i < n)%nat -> 0 <= y i) ->
    nonzero_list n so nzo -> nonzero_list n si nzi -> (forall i, (i < n)%nat -> (x i <> 0 <-> so i <> 0)) -> (forall i, (i < n)%nat -> (y i <> 0 <-> si i <> 0)) ->
    crema_dir_dom n (all_edges n (dcm_prob x y)) x0 ->
    accepted d_dispatch "crema-sparse" "quasinewton" reg (run_settles linsolve ok eigh fuel (2 * n) (A5c n so si (Factors2 x y) nzo nzi) O (crema_dir_dom n (all_edges n (dcm_prob x y)))
      (loglikelihood_crema_directed n so si (all_edges n (dcm_prob x y)) nzo nzi) U x0).
  Proof. intros. eapply accepted_weaken; [intros D; apply climbs_settles|]. apply crema_dir_sparse_climbs; assumption. Qed.
End Runs.
