(** Fixed-point runs of CReMa. *)
From Coq Require Import Reals ZArith List Arith Bool String Lia Lra Psatz.
From Verif Require Import Base SpecGraph ProofsGraph SpecEnsemble SpecCReMa SpecDispatch SpecExist SpecConverge SpecAscend SpecDirected ModelDCM ModelCReMa ModelLinsearch ModelSolver ModelDispatch ModelRun
  ProofsList ProofsLinsearch ProofsCReMa ProofsMainCReMa ProofsSparseCReMa ProofsDirCReMa ProofsTool ProofsResidual ProofsTraj ProofsConvergeRun ProofsAscend ProofsAscendLimit.
Import ListNotations.
Local Open Scope R_scope.

Lemma pair_sum_esum es F : pair_sum es F = esum es F.
Proof. unfold esum. induction es as [|[[i j] w] l IH]; [reflexivity|]. cbn [pair_sum lsum fst snd]. rewrite IH. reflexivity. Qed.
Lemma value_cL m s es b : crema_value m s es b = cL m s es b.
Proof. unfold crema_value, cL. rewrite pair_sum_esum. ring. Qed.
Lemma strengths_cE es b k : crema_strengths es b k = cE es b k.
Proof. apply pair_sum_esum. Qed.
Lemma distance_dist m s z b : crema_distance m s z b = dist m s z b.
Proof. reflexivity. Qed.
Lemma two_sided_sh n es : two_sided n es = sh n es.
Proof. reflexivity. Qed.

Lemma above_real r : exists N, r < INR N.
Proof.
  destruct (archimed r) as [H _]. exists (Z.to_nat (up r)). destruct (Z_le_gt_dec 0 (up r)) as [L|L].
  - rewrite INR_IZR_INZ, Z2Nat.id by exact L. lra.
  - apply Z.gt_lt in L. apply IZR_lt in L. assert (Q := pos_INR (Z.to_nat (up r))). lra.
Qed.

Section Approach.
  Variables (linsolve : (nat -> nat -> R) -> (nat -> R) -> option (nat -> R)) (ok : (nat -> nat -> R) -> bool)
    (eigh : (nat -> nat -> R) -> (nat -> R) * (nat -> nat -> R)) (fuel m : nat) (a : arguments) (search : bool)
    (x0 s : nat -> R) (es : topology) (z : nat -> R) (D : dispatched).
  Let P := run_problem eigh fuel m D a.
  Hypothesis Pf : forall b, crema_dom es b -> ends_nonzero es b -> exists F G, iterative_crema_undirected m s es b = Some F /\ p_fun P b = Some G /\ forall i, (i < m)%nat -> G i = - F i.
  Hypothesis Pl : forall x dx old u v t, exists l, p_lin_fp P x dx old u v t = Some (norm_loop l dx old u v t).
  Hypotheses (HB : pairs_below m es) (HW : positive_weights es) (H0 : positive_ends es x0).

  Local Lemma lp_dom b : positive_ends es b -> crema_dom es b.
  Proof. intros H i j w Hin. destruct (H i j w Hin). lra. Qed.
  Local Lemma lp_ends b : positive_ends es b -> ends_nonzero es b.
  Proof. intros H i j w Hin. destruct (H i j w Hin). lra. Qed.
  Lemma gval_em b k : positive_ends es b -> (k < m)%nat -> gval P b k = em s es b k.
  Proof.
    intros Hb Hk. destruct (Pf b (lp_dom b Hb) (lp_ends b Hb)) as (F & G & E & Ep & EG). destruct (iterative_crema_some m s es b (lp_dom b Hb) (lp_ends b Hb)) as (F' & E' & HF).
    rewrite E in E'. injection E' as <-. unfold gval. rewrite Ep, EG, HF by exact Hk. unfold em. destruct (Req_EM_T (s k) 0); [ring|]. unfold Rdiv. ring.
  Qed.
  Lemma A_range t : amin <= A P search x0 t <= 1.
  Proof.
    unfold A, aval. assert (R := amin_range). destruct search; [|lra].
    match goal with |- context [p_lin_fp P ?x ?dx ?old ?u ?v ?tt] => destruct (Pl x dx old u v tt) as (l & ->) end. apply norm_loop_range. lra.
  Qed.
  Lemma X_step t k : (k < m)%nat -> listed_positive es (X P search x0 t) -> X P search x0 (S t) k = mixed (A P search x0 t) (X P search x0 t) (em s es (X P search x0 t)) k.
  Proof. intros Hk Hb. rewrite X_S, gval_em by assumption. reflexivity. Qed.
  Hypothesis all_positive : forall t, positive_ends es (X P search x0 t).
  Lemma total_f t : p_fun P (X P search x0 t) <> None.
  Proof. destruct (Pf _ (lp_dom _ (all_positive t)) (lp_ends _ (all_positive t))) as (F & G & _ & -> & _). discriminate. Qed.
  Lemma total_l : search = true -> forall t old, p_lin_fp P (X P search x0 t) (fun i => gval P (X P search x0 t) i - X P search x0 t i) old 1 (/ 2) t <> None.
  Proof. intros _ t old. destruct (Pl (X P search x0 t) (fun i => gval P (X P search x0 t) i - X P search x0 t i) old 1 (/ 2) t) as (l & ->). discriminate. Qed.
End Approach.

Lemma approaches linsolve ok eigh fuel m a search x0 s es z D :
  (forall b, crema_dom es b -> ends_nonzero es b -> exists F G, iterative_crema_undirected m s es b = Some F /\ p_fun (run_problem eigh fuel m D a) b = Some G /\ forall i, (i < m)%nat -> G i = - F i) ->
  (forall x dx old u v t, exists l, p_lin_fp (run_problem eigh fuel m D a) x dx old u v t = Some (norm_loop l dx old u v t)) ->
  pairs_below m es -> positive_weights es -> positive_ends es x0 -> positive_solution m s es z ->
  run_approaches linsolve ok eigh fuel m a search x0 s es z D /\ steps_ascend linsolve ok eigh fuel m a search x0 s es z D /\ run_settles linsolve ok eigh fuel m a search x0 s es D.
Proof.
  intros Pf Pl HB HW H0 [HZ HS]. set (P := run_problem eigh fuel m D a).
  assert (HS' : forall k, (k < m)%nat -> cE es z k = s k) by (intros k Hk; rewrite <- strengths_cE; apply HS; exact Hk).
  assert (St := X_step eigh fuel m a search x0 s es D Pf). fold P in St. assert (Ra := A_range eigh fuel m a search x0 D Pl). fold P in Ra.
  assert (AP := xs_listed m s es z HB HW HZ HS' amin (X P search x0) (A P search x0) amin_range Ra H0 St).
  assert (Tf := total_f eigh fuel m a search x0 s es D Pf AP). assert (Tl := total_l eigh fuel m a search x0 D Pl). fold P in Tf, Tl.
  destruct (sequence_facts m s es z HB HW HZ HS' amin (X P search x0) (A P search x0) amin_range Ra H0 St) as (K & B & C & PK & PB & PC & G).
  split; [split|split].
  - exists K, B. split; [exact PK|]. split; [exact PB|]. intros O (OM & OL & OF).
    destruct (run_traj linsolve ok m P search x0 Tf Tl O OM OL OF) as (k & ns & ds & als & E & Lk & _ & En & Sp).
    rewrite (seq_S k), map_app in En. cbn [Nat.add map] in En.
    exists (X P search x0 k), k, (map (fun u => norm2 m (gval P (X P search x0 u))) (seq 0 k)), (norm2 m (gval P (X P search x0 k))), ds, als.
    rewrite <- En. split; [exact E|]. split; [exact Lk|]. destruct (G k) as (G1 & G2 & G3 & G4 & G5 & _).
    split; [exact G1|]. rewrite !value_cL, !distance_dist. split; [exact G2|].
    split; [split; [apply (dist_nonneg m s es z HB HW HZ HS' z (X P search x0 k) HZ G1)|exact G3]|]. split; [exact G4|].
    split; [intros q Hq; rewrite strengths_cE; replace ((cE es (X P search x0 k) q - s q) ^ 2) with ((cE es (X P search x0 k) q - s q) * (cE es (X P search x0 k) q - s q)) by ring; apply G5; exact Hq|].
    intros He. destruct (Sp (proj2 He)) as [S1|[S1|(u & -> & S1)]]; [left; exact S1|right; left; exact S1|]. right. right. intros q Hq. rewrite strengths_cE.
    destruct (G u) as (_ & _ & _ & _ & _ & G6 & _). apply G6; [lra| |exact Hq]. intros j Hj. apply Rle_trans with (2 := S1). exact (norm2_ge m (fun i => X P search x0 (S u) i - X P search x0 u i) j Hj).
  - intros eps He. destruct (above_real (C / (eps * eps))) as [N HN]. exists (S N). intros O x t ns ds als (OM & OL & OF) Le E.
    destruct (run_traj linsolve ok m P search x0 Tf Tl O OM OL OF) as (k & ns' & ds' & als' & E' & _ & Q & _).
    fold P in E. rewrite E in E'. injection E' as _ -> _ _ _. destruct (le_dec k (S N)) as [|Nk]; [assumption|]. exfalso.
    specialize (Q N ltac:(lia)). destruct (G N) as (_ & _ & _ & _ & _ & _ & G7).
    set (d := norm2 m (fun i => X P search x0 (S N) i - X P search x0 N i)) in *.
    assert (Ed : d * d = rsum m (fun k => (X P search x0 (S N) k - X P search x0 N k) * (X P search x0 (S N) k - X P search x0 N k))).
    { unfold d, norm2, dot. apply sqrt_sqrt. apply rsum_nonneg. intros i _. apply Rle_0_sqr. }
    rewrite <- Ed in G7. assert (PN := pos_INR N). assert (eps * eps <= d * d) by nra.
    apply Rmult_lt_compat_r with (r := eps * eps) in HN; [|nra]. replace (C / (eps * eps) * (eps * eps)) with C in HN by (field; lra).
    assert (INR N * (eps * eps) <= INR N * (d * d)) by (apply Rmult_le_compat_l; assumption). lra.
  - intros O O' x t ns ds als x' t' ns' ds' als' (OM & OL & OF) (OM' & OL' & OF') E E' Lt. fold P in E, E'.
    destruct (run_traj linsolve ok m P search x0 Tf Tl O OM OL OF) as (k & l1 & l2 & l3 & Q & _). rewrite E in Q. injection Q as -> -> _ _ _.
    destruct (run_traj linsolve ok m P search x0 Tf Tl O' OM' OL' OF') as (k' & l1' & l2' & l3' & Q & _). rewrite E' in Q. injection Q as -> -> _ _ _.
    rewrite !value_cL, !distance_dist. clear E E'. induction Lt as [|q Lt [IH1 IH2]]; [split; apply Rle_refl|].
    assert (D1 := gap_decreases m s es z HB HW HZ HS' amin (X P search x0) (A P search x0) amin_range Ra H0 St q). unfold gap in D1.
    assert (D2 := dist_decreases m s es z HB HW HZ HS' amin (X P search x0) (A P search x0) amin_range Ra H0 St q).
    assert (D3 := gap_nonneg m s es z HB HW HZ HS' amin (X P search x0) (A P search x0) amin_range Ra H0 St q).
    assert (D4 := Ra q). assert (R := amin_range). assert (0 <= A P search x0 q * gap m s es z (X P search x0) q) by (apply Rmult_le_pos; lra). split; lra.
  - destruct (sequence_limit m s es z HB HW HZ HS' amin (X P search x0) (A P search x0) amin_range Ra H0 St) as (y & Y1 & Y2 & Y3). exists y.
    split; [split; [exact Y1|intros k Hk; rewrite strengths_cE; apply Y2; exact Hk]|]. intros e He. destruct (Y3 e He) as (T & HT). exists T.
    intros O x t ns ds als (OM & OL & OF) E Lt. fold P in E. destruct (run_traj linsolve ok m P search x0 Tf Tl O OM OL OF) as (k & l1 & l2 & l3 & Q & _).
    rewrite E in Q. injection Q as -> -> _ _ _. apply HT. exact Lt.
Qed.

(** * The undirected and the directed runs *)
Lemma crema_fp_fun eigh fuel n s es reg D : u_dispatch "crema" "fixed-point" reg = inl D ->
  (forall b, crema_dom es b -> ends_nonzero es b -> exists F G, iterative_crema_undirected n s es b = Some F /\ p_fun (run_problem eigh fuel n D (A3 n s (Triples es))) b = Some G /\ forall i, (i < n)%nat -> G i = - F i) /\
  (forall x dx old u v t, exists l, p_lin_fp (run_problem eigh fuel n D (A3 n s (Triples es))) x dx old u v t = Some (norm_loop l dx old u v t)).
Proof.
  intros E. injection E as <-. split.
  - intros b Hd Hn. destruct (iterative_crema_some n s es b Hd Hn) as (F & EF & _). exists F, (fun i => - F i). split; [exact EF|]. split; [|reflexivity].
    cbn [p_fun run_problem d_fun]. unfold run_entry. cbn. rewrite EF. apply all_fin_fin.
  - intros. exists n. reflexivity.
Qed.
Lemma crema_approaches linsolve ok eigh fuel n s es reg search x0 z :
  pairs_below n es -> positive_weights es -> positive_ends es x0 -> positive_solution n s es z ->
  accepted u_dispatch "crema" "fixed-point" reg (fun D => run_approaches linsolve ok eigh fuel n (A3 n s (Triples es)) search x0 s es z D /\
    steps_ascend linsolve ok eigh fuel n (A3 n s (Triples es)) search x0 s es z D /\ run_settles linsolve ok eigh fuel n (A3 n s (Triples es)) search x0 s es D).
Proof.
  intros HB HW H0 HZ. eexists. split; [reflexivity|]. destruct (crema_fp_fun eigh fuel n s es reg _ eq_refl) as [Pf Pl]. apply approaches; assumption.
Qed.
Lemma crema_dir_fp_fun eigh fuel n so si es nzo nzi reg D : nonzero_list n so nzo -> nonzero_list n si nzi -> d_dispatch "crema" "fixed-point" reg = inl D ->
  (forall b, crema_dom (sh n es) b -> ends_nonzero (sh n es) b -> exists F G, iterative_crema_undirected (n + n) (cat n so si) (sh n es) b = Some F /\ p_fun (run_problem eigh fuel (n + n) D (A5c n so si (Triples es) nzo nzi)) b = Some G /\ forall i, (i < n + n)%nat -> G i = - F i) /\
  (forall x dx old u v t, exists l, p_lin_fp (run_problem eigh fuel (n + n) D (A5c n so si (Triples es) nzo nzi)) x dx old u v t = Some (norm_loop l dx old u v t)).
Proof.
  intros Ho Hi E. injection E as <-. split.
  - intros b Hd Hn. destruct (iterative_crema_some (n + n) (cat n so si) (sh n es) b Hd Hn) as (F & EF & _). exists F, (fun i => - F i). split; [exact EF|]. split; [|reflexivity].
    cbn [p_fun run_problem d_fun]. unfold run_entry. cbn. rewrite (iterative_crema_dir_eq n so si es nzo nzi Ho Hi), EF. apply all_fin_fin.
  - intros. exists (n + n)%nat. reflexivity.
Qed.
Lemma sh_positive n es : positive_weights es -> positive_weights (sh n es).
Proof. intros H i j w Hin. apply in_sh in Hin. destruct Hin as (j' & -> & Hin). apply (H i j' w Hin). Qed.
Lemma crema_dir_approaches linsolve ok eigh fuel n so si es nzo nzi reg search x0 z :
  pairs_below n es -> positive_weights es -> nonzero_list n so nzo -> nonzero_list n si nzi ->
  positive_ends (two_sided n es) x0 -> positive_solution (n + n) (two_arrays n so si) (two_sided n es) z ->
  accepted d_dispatch "crema" "fixed-point" reg (fun D => run_approaches linsolve ok eigh fuel (n + n) (A5c n so si (Triples es) nzo nzi) search x0 (two_arrays n so si) (two_sided n es) z D /\
    steps_ascend linsolve ok eigh fuel (n + n) (A5c n so si (Triples es) nzo nzi) search x0 (two_arrays n so si) (two_sided n es) z D /\
    run_settles linsolve ok eigh fuel (n + n) (A5c n so si (Triples es) nzo nzi) search x0 (two_arrays n so si) (two_sided n es) D).
Proof.
  intros HB HW Ho Hi H0 HZ. eexists. split; [reflexivity|]. destruct (crema_dir_fp_fun eigh fuel n so si es nzo nzi reg _ Ho Hi eq_refl) as [Pf Pl].
  apply approaches; [exact Pf|exact Pl|apply sh_below; exact HB|apply sh_positive; exact HW|exact H0|exact HZ].
Qed.
