(** Calls of [solve_tool] that start from the solution of an earlier one. *)
From Coq Require Import Reals List Arith Bool String Lia Lra.
From Verif Require Import Base SpecDeriv SpecGraph SpecEnsemble SpecWeighted SpecDirected SpecCReMa SpecNetwork SpecLinsearch SpecDispatch SpecRun SpecSolver SpecSolve SpecGuess SpecTool
  ModelCM ModelECM ModelDCM ModelDECM ModelCReMa ModelIEEE ModelNetwork ModelLinsearch ModelSolver ModelDispatch ModelGuess ModelRun ModelSolve ModelTool SpecStart.
From Verif Require Import ProofsGraph ProofsUnique ProofsCM ProofsMainCM ProofsECM ProofsMainECM ProofsDCM ProofsCReMa ProofsMainCReMa ProofsAdjacency ProofsSolver ProofsConverged ProofsGuess ProofsGuessW ProofsGuessV ProofsDispatch ProofsRun ProofsSolve ProofsSolveU ProofsSolveD ProofsTool ProofsToolD ProofsSpectral ProofsDirCReMa ProofsReport WitnessTool ProofsStart ProofsGuarded.
Import ListNotations.
Local Open Scope R_scope.

(** * The solver *)
Lemma reached_norm e opt m d a x0 r : report_of (solve_with e opt m d a x0) = Some r -> tolerance_reached (o_tol opt) r ->
  exists D A x f, d = inl D /\ a = Some A /\ solved_of (solve_with e opt m d a x0) = Some {| o_x := x; o_inf := fun _ => false |} /\
    real_vec m (run_entry (d_fun D) A x) = Some f /\ norm2 m f <= o_tol opt.
Proof.
  intros Hr Ht. destruct (solve_reached e opt m d a x0 r Hr Ht) as (D & A & z & x & Ed & Ea & _ & ES & Ev & _).
  destruct (solver_full_report _ _ _ _ _ _ _ _ _ _ _ _ ES) as (L1 & _ & _ & (f & Ef & Nf) & _).
  exists D, A, x, f. split; [exact Ed|]. split; [exact Ea|]. split; [exact Ev|]. split; [exact Ef|].
  destruct Ht as (l & last & Hl & Ha). rewrite Hl in L1, Nf. rewrite app_length in L1. cbn in L1.
  rewrite nth_error_app2 in Nf by lia. replace (r_steps r - List.length l)%nat with O in Nf by lia. cbn in Nf. injection Nf as <-. exact Ha.
Qed.
Lemma norm2_ext m f h : (forall i, (i < m)%nat -> f i = h i) -> norm2 m f = norm2 m h.
Proof. intros H. unfold norm2. f_equal. apply rsum_ext. intros i Hi. rewrite H by exact Hi. reflexivity. Qed.
Lemma rerun e opt e2 opt2 m d a x0 r v z2 : report_of (solve_with e opt m d a x0) = Some r -> tolerance_reached (o_tol opt) r ->
  solved_of (solve_with e opt m d a x0) = Some v -> o_full_return opt2 = true -> o_tol opt <= o_tol opt2 ->
  (forall D A f, d = inl D -> a = Some A -> real_vec m (run_entry (d_fun D) A (o_x v)) = Some f ->
     exists f2, real_vec m (run_entry (d_fun D) A z2) = Some f2 /\ forall i, (i < m)%nat -> f2 i = f i) ->
  exists D l, d = inl D /\ solve_with e2 opt2 m d a (Some z2) = Full z2 0 [l] [1] [].
Proof.
  intros Hr Ht Hv HF HT HC. destruct (reached_norm e opt m d a x0 r Hr Ht) as (D & A & x & f & Ed & Ea & Ev & Ef & Nf).
  rewrite Ev in Hv. injection Hv as <-. cbn [o_x] in HC. destruct (HC D A f Ed Ea Ef) as (f2 & E2 & X2). exists D, (norm2 m f2). split; [exact Ed|].
  apply (stop_at_start e2 opt2 m d a (Some z2) D A z2 f2 HF Ed Ea eq_refl E2). rewrite (norm2_ext m f2 f X2). lra.
Qed.

(** * The gradients only read the entries of the point *)
Ltac agree HA := repeat match goal with |- context [?z ?t] => match type of HA with forall r, _ -> z r = _ => rewrite (HA t) by lia end end.
Lemma prime_cm_agree n k c z z' i : (forall r, (r < n)%nat -> z r = z' r) -> (i < n)%nat -> loglikelihood_prime_cm n k c z i = loglikelihood_prime_cm n k c z' i.
Proof.
  intros HA Hi. unfold loglikelihood_prime_cm. agree HA. apply loop_ext. intros j f Hj. agree HA. reflexivity.
Qed.
Lemma prime_cm_exp_agree n k c z z' i : (forall r, (r < n)%nat -> z r = z' r) -> (i < n)%nat -> loglikelihood_prime_cm_exp n k c z i = loglikelihood_prime_cm_exp n k c z' i.
Proof.
  intros HA Hi. unfold loglikelihood_prime_cm_exp. apply loop_ext. intros j f Hj. cbv zeta. agree HA. reflexivity.
Qed.
Lemma prime_ecm_agree n k s z z' r : (forall r, (r < 2 * n)%nat -> z r = z' r) -> (r < 2 * n)%nat -> loglikelihood_prime_ecm n k s z r = loglikelihood_prime_ecm n k s z' r.
Proof.
  intros HA Hr. unfold loglikelihood_prime_ecm. destruct (Nat.ltb_spec r n); cbv zeta; agree HA; apply loop_ext; intros j f Hj; agree HA; reflexivity.
Qed.
Lemma prime_ecm_exp_agree n k s z z' r : (forall r, (r < 2 * n)%nat -> z r = z' r) -> (r < 2 * n)%nat -> loglikelihood_prime_ecm_exp n k s z r = loglikelihood_prime_ecm_exp n k s z' r.
Proof.
  intros HA Hr. unfold loglikelihood_prime_ecm_exp. destruct (Nat.ltb_spec r n); cbv zeta; apply loop_ext; intros j f Hj; agree HA; reflexivity.
Qed.
Lemma pos_lt n r : (r < 4 * n)%nat -> (pos n r < n)%nat.
Proof. intros Hr. unfold pos, blk. destruct (Nat.ltb_spec r n); [lia|]. destruct (Nat.ltb_spec r (2 * n)); [lia|]. destruct (Nat.ltb_spec r (3 * n)); lia. Qed.
Lemma prime_decm_agree n ko ki so si z z' r : (forall r, (r < 4 * n)%nat -> z r = z' r) -> (r < 4 * n)%nat ->
  loglikelihood_prime_decm n ko ki so si z r = loglikelihood_prime_decm n ko ki so si z' r.
Proof.
  intros HA Hr. unfold loglikelihood_prime_decm, by_block.
  assert (P : (pos n r < n)%nat) by (apply pos_lt; exact Hr). revert P. generalize (pos n r). intros i P. destruct (blk n r) as [|[|[|b]]]; cbv zeta; agree HA;
    (erewrite loop_ext; [reflexivity|]); intros j f Hj; cbv beta zeta; agree HA; reflexivity.
Qed.
Lemma prime_decm_exp_agree n ko ki so si z z' r : (forall r, (r < 4 * n)%nat -> z r = z' r) -> (r < 4 * n)%nat ->
  loglikelihood_prime_decm_exp n ko ki so si z r = loglikelihood_prime_decm_exp n ko ki so si z' r.
Proof.
  intros HA Hr. unfold loglikelihood_prime_decm_exp, by_block.
  assert (P : (pos n r < n)%nat) by (apply pos_lt; exact Hr). revert P. generalize (pos n r). intros i P. destruct (blk n r) as [|[|[|b]]]; cbv zeta;
    (erewrite loop_ext; [reflexivity|]); intros j f Hj; cbv beta zeta; agree HA; reflexivity.
Qed.
(** The directed binary model only reads the classes with a nonzero degree. *)
Definition agree_on (n : nat) (nzo nzi : list nat) (z z' : nat -> R) : Prop :=
  (forall i, In i nzo -> z i = z' i) /\ (forall j, In j nzi -> z (j + n)%nat = z' (j + n)%nat).
Lemma prime_dcm_agree n ko ki nzo nzi c z z' r : agree_on n nzo nzi z z' ->
  loglikelihood_prime_dcm n ko ki nzo nzi c z r = loglikelihood_prime_dcm n ko ki nzo nzi c z' r.
Proof.
  intros [HO HI]. unfold loglikelihood_prime_dcm. destruct (Nat.ltb_spec r n); cbv zeta.
  - destruct (memb r nzo) eqn:E; [|reflexivity]. apply existsb_exists in E. destruct E as (q & Hq & E). apply Nat.eqb_eq in E. subst q.
    rewrite (HO r Hq). do 2 f_equal. apply lloop_ext. intros j b Hj. rewrite (HI j Hj). reflexivity.
  - destruct (memb (r - n) nzi) eqn:E; [|reflexivity]. apply existsb_exists in E. destruct E as (q & Hq & E). apply Nat.eqb_eq in E. subst q.
    rewrite (HI (r - n)%nat Hq). do 2 f_equal. apply lloop_ext. intros j b Hj. rewrite (HO j Hj). reflexivity.
Qed.
Lemma prime_dcm_exp_agree n ko ki nzo nzi c z z' r : agree_on n nzo nzi z z' ->
  loglikelihood_prime_dcm_exp n ko ki nzo nzi c z r = loglikelihood_prime_dcm_exp n ko ki nzo nzi c z' r.
Proof.
  intros [HO HI]. unfold loglikelihood_prime_dcm_exp. destruct (Nat.ltb_spec r n); cbv zeta.
  - destruct (memb r nzo) eqn:E; [|reflexivity]. apply existsb_exists in E. destruct E as (q & Hq & E). apply Nat.eqb_eq in E. subst q.
    rewrite (HO r Hq). do 2 f_equal. apply lloop_ext. intros j b Hj. rewrite (HI j Hj). reflexivity.
  - destruct (memb (r - n) nzi) eqn:E; [|reflexivity]. apply existsb_exists in E. destruct E as (q & Hq & E). apply Nat.eqb_eq in E. subst q.
    rewrite (HI (r - n)%nat Hq). do 2 f_equal. apply lloop_ext. intros j b Hj. rewrite (HO j Hj). reflexivity.
Qed.
Lemma prime_crema_agree n s es z z' : (forall i j w, In (i, j, w) es -> z i = z' i /\ z j = z' j) ->
  loglikelihood_prime_crema_undirected n s es z = loglikelihood_prime_crema_undirected n s es z'.
Proof. intros HA. unfold loglikelihood_prime_crema_undirected. apply eloop_ext. intros i j w f Hin. destruct (HA i j w Hin) as [-> ->]. reflexivity. Qed.
Lemma prime_crema_dir_agree n so si es nzo nzi z z' : (forall i j w, In (i, j, w) es -> z i = z' i /\ z (j + n)%nat = z' (j + n)%nat) ->
  loglikelihood_prime_crema_directed n so si es nzo nzi z = loglikelihood_prime_crema_directed n so si es nzo nzi z'.
Proof. intros HA. unfold loglikelihood_prime_crema_directed. apply eloop_ext. intros i j w f Hin. destruct (HA i j w Hin) as [-> ->]. reflexivity. Qed.

(** * UndirectedGraph *)
Lemma u_rerun e g t o r v e2 t2 o2 z2 : In (t_model t) ["cm"; "cm_exp"; "ecm"; "ecm_exp"]%string ->
  solved_of (u_result e g t o) = Some v -> u_report e g t o = Some r -> tolerance_reached (t_tol t) r -> resumes t t2 -> us_beta o2 = None ->
  u_start g (t_model t) (v_rnd e2) (t_guess t2) = Some z2 ->
  (forall D A f, u_dispatch (t_model t) (t_method t) None = inl D -> u_args g (t_model t) None = Some A ->
     real_vec (u_length g (t_model t)) (run_entry (d_fun D) A (o_x v)) = Some f ->
     exists f2, real_vec (u_length g (t_model t)) (run_entry (d_fun D) A z2) = Some f2 /\ forall i, (i < u_length g (t_model t))%nat -> f2 i = f i) ->
  exists o2' r2, u_tool e2 g t2 o2 = (o2', None) /\ u_report e2 g t2 o2 = Some r2 /\ r_steps r2 = O /\
    solved_of (u_result e2 g t2 o2) = Some {| o_x := z2; o_inf := fun _ => false |}.
Proof.
  intros Hm Hv Hr Ht (E1 & E2 & E3 & E4) Hb Hz HC.
  assert (EA : among (t_model t) ["crema"; "crema-sparse"]%string = false) by (destruct Hm as [E|[E|[E|[E|[]]]]]; rewrite <- E; reflexivity).
  unfold u_report, u_result in Hr. unfold u_result in Hv. rewrite EA in Hr, Hv. unfold u_solver in Hr, Hv.
  destruct (rerun e _ e2 (t_options t2 (t_method t) (t_linsearch t2)) _ _ _ _ r v z2 Hr Ht Hv E4 E3 HC) as (D & l & HD & HS).
  assert (ER : u_result e2 g t2 o2 = Full z2 0 [l] [1] []).
  { unfold u_result. rewrite E1, EA. unfold u_solver. rewrite E2, Hz. exact HS. }
  destruct (u_completes e2 g t2 o2 z2 D {| o_x := z2; o_inf := fun _ => false |}) as (o2' & H).
  { rewrite E1. exact Hm. } { exact Hb. } { rewrite E1. exact Hz. } { rewrite E1, E2. exact HD. } { rewrite ER. reflexivity. }
  exists o2'. eexists. split; [exact H|]. unfold u_report. rewrite ER. split; [reflexivity|]. split; reflexivity.
Qed.
Lemma u_first g q : (q < u_length g "cm")%nat -> (nth q (np_first Nat.leb Nat.eqb (un_dseq g)) O < un_n g)%nat /\
  u_class g (nth q (np_first Nat.leb Nat.eqb (un_dseq g)) O) = q.
Proof.
  intros Hq. change (u_length g "cm") with (List.length (np_unique Nat.leb Nat.eqb (un_dseq g))) in Hq.
  pose proof (reduction_unique Nat.leb Nat.eqb (un_dseq g) nat_order) as (Hinc & _ & _ & _ & _ & Hv & Hf & _).
  destruct (nth_error (np_unique Nat.leb Nat.eqb (un_dseq g)) q) as [k|] eqn:E; [|apply nth_error_None in E; lia].
  destruct (Hf q k E) as (i & H1 & Hi & _). rewrite (nth_error_nth _ _ O H1).
  split; [apply nth_error_Some; rewrite Hi; discriminate|].
  destruct (Hv i k Hi) as (q' & Q1 & Q2). unfold u_class. rewrite (nth_error_nth _ _ O Q1). destruct (Nat.lt_trichotomy q q') as [Q|[Q|Q]]; [|auto|].
  - destruct (Hinc _ _ _ _ Q E Q2) as [_ Z]. exfalso. apply Z. reflexivity.
  - destruct (Hinc _ _ _ _ Q Q2 E) as [_ Z]. exfalso. apply Z. reflexivity.
Qed.
Lemma first_below g : forallb (fun i => Nat.ltb i (un_n g)) (np_first Nat.leb Nat.eqb (un_dseq g)) = true.
Proof.
  apply forallb_forall. intros i Hi. destruct (In_nth _ _ O Hi) as (q & Hq & <-). apply Nat.ltb_lt. apply u_first.
  pose proof (reduction_unique Nat.leb Nat.eqb (un_dseq g) nat_order) as (_ & _ & _ & _ & L & _). rewrite L in Hq. exact Hq.
Qed.
Lemma stands_same e a b x : stands_for e a x -> (x = if e then exp (- b) else b) -> a = b.
Proof. unfold stands_for. destruct e; intros H E; [|congruence]. rewrite H in E. apply exp_inv in E. lra. Qed.
Lemma restart_cm e g t o o' r x a e2 t2 o2 : (0 < un_n g)%nat -> us_beta o = None -> In (t_model t) ["cm"; "cm_exp"]%string -> In (t_method t) descent_methods ->
  (forall i, (i < un_n g)%nat -> nth i (un_dseq g) O <> O) ->
  u_tool e g t o = (o', None) -> u_report e g t o = Some r -> tolerance_reached (t_tol t) r -> us_x o' = Some x ->
  resumes t t2 -> us_beta o2 = None -> t_guess t2 = GArr (un_n g) a -> (forall i, (i < un_n g)%nat -> stands_for (String.eqb (t_model t) "cm_exp") (a i) (x i)) ->
  exists o2' r2 x2, u_tool e2 g t2 o2 = (o2', None) /\ u_report e2 g t2 o2 = Some r2 /\ r_steps r2 = O /\
    us_x o2' = Some x2 /\ forall i, (i < un_n g)%nat -> x2 i = x i.
Proof.
  intros Hn Hb Hm Hme Hd H Hr Ht Hx HR Hb2 Hg Ha. destruct (tool_cm_state e g t o o' Hn Hb Hm H) as (v & x' & err & Ev & Ex & _ & XX & _).
  rewrite Ex in Hx. injection Hx as ->.
  assert (EL : u_length g (t_model t) = u_length g "cm") by (destruct Hm as [E|[E|[]]]; rewrite <- E; reflexivity).
  assert (HZ : exists z2, u_start g (t_model t) (v_rnd e2) (t_guess t2) = Some z2 /\ forall q, (q < u_length g "cm")%nat -> z2 q = o_x v q).
  { rewrite Hg. unfold u_start. assert (EM : among (t_model t) ["cm"; "cm_exp"]%string = true) by (destruct Hm as [E|[E|[]]]; rewrite <- E; reflexivity). rewrite EM.
    unfold set_initial_guess_cm, degree_reduction_und. rewrite first_below. cbn [gbind start_of g_x0]. rewrite EL.
    assert (F : forall q, (q < u_length g "cm")%nat -> where_zero (fun i => INR (nth i (np_unique Nat.leb Nat.eqb (un_dseq g)) O)) 0
                (fun i => Fin (a (nth i (np_first Nat.leb Nat.eqb (un_dseq g)) O))) q = Fin (o_x v q)).
    { intros q Hq. destruct (u_first g q Hq) as [U1 U2]. set (i := nth q (np_first Nat.leb Nat.eqb (un_dseq g)) O) in *.
      rewrite where_zero_off.
      - fold i. f_equal. apply (stands_same _ _ _ _ (Ha i U1)). rewrite XX. unfold cm_factor. rewrite U2. destruct Hm as [E|[E|[]]]; rewrite <- E; reflexivity.
      - pose proof (u_class_degree g i U1) as D. rewrite U2 in D. unfold at_list in D. rewrite D. apply not_0_INR, Hd, U1. }
    destruct (all_fin_some _ _ _ F) as (z2 & Hz). exists z2. split; [exact Hz|]. intros q Hq.
    pose proof (all_fin_inv _ _ _ Hz q Hq) as E. rewrite (F q Hq) in E. injection E as ->. reflexivity. }
  destruct HZ as (z2 & Hz & Az).
  destruct (u_rerun e g t o r v e2 t2 o2 z2) as (o2' & r2 & H2 & R2 & S2 & V2); try assumption.
  { cbn in Hm |- *; tauto. }
  { intros D A f HD HA. rewrite (args_cm g (t_model t) None Hm) in HA. injection HA as <-. rewrite EL. unfold u_args_cm.
    destruct Hm as [E|[E|[]]]; rewrite <- E in *.
    - change (u_length g "cm") with (List.length (np_unique Nat.leb Nat.eqb (un_dseq g))) in *. rewrite !(fun_cm _ D _ _ _ _ Hme HD). rewrite (cm_divisors_agree _ z2 (o_x v) Az). destruct (cm_divisors _ _); [|discriminate].
      intros Ef. injection Ef as <-. eexists. split; [reflexivity|]. intros i Hi. cbv beta. f_equal. apply prime_cm_agree; [exact Az|exact Hi].
    - change (u_length g "cm") with (List.length (np_unique Nat.leb Nat.eqb (un_dseq g))) in *. rewrite !(fun_cm_exp _ D _ _ _ _ Hme HD).
      intros Ef. injection Ef as <-. eexists. split; [reflexivity|]. intros i Hi. cbv beta. f_equal. apply prime_cm_exp_agree; [exact Az|exact Hi]. }
  assert (Hm2 : In (t_model t2) ["cm"; "cm_exp"]%string) by (rewrite (proj1 HR); exact Hm).
  destruct (tool_cm_state e2 g t2 o2 o2' Hn Hb2 Hm2 H2) as (v2 & x2 & _ & Ev2 & Ex2 & _ & XX2 & _).
  rewrite V2 in Ev2. injection Ev2 as <-. exists o2', r2, x2. do 4 (split; [assumption|]). intros i Hi. rewrite XX2, XX. unfold cm_factor. cbn [o_x].
  rewrite (proj1 HR), (Az (u_class g i)) by (apply u_class_error; exact Hi). reflexivity.
Qed.
Lemma restart_ecm e g t o o' r x y a e2 t2 o2 : (0 < un_n g)%nat -> In (t_model t) ["ecm"; "ecm_exp"]%string -> In (t_method t) descent_methods ->
  (forall i, (i < un_n g)%nat -> nth i (un_dseq g) O <> O /\ un_str g i <> 0) ->
  u_tool e g t o = (o', None) -> u_report e g t o = Some r -> tolerance_reached (t_tol t) r -> us_x o' = Some x -> us_y o' = Some y ->
  resumes t t2 -> us_beta o2 = None -> t_guess t2 = GArr (2 * un_n g) a ->
  (forall i, (i < un_n g)%nat -> stands_for (String.eqb (t_model t) "ecm_exp") (a i) (x i) /\ stands_for (String.eqb (t_model t) "ecm_exp") (a (i + un_n g)%nat) (y i)) ->
  exists o2' r2 x2 y2, u_tool e2 g t2 o2 = (o2', None) /\ u_report e2 g t2 o2 = Some r2 /\ r_steps r2 = O /\
    us_x o2' = Some x2 /\ us_y o2' = Some y2 /\ forall i, (i < un_n g)%nat -> x2 i = x i /\ y2 i = y i.
Proof.
  intros Hn Hm Hme Hd H Hr Ht Hx Hy HR Hb2 Hg Ha. destruct (tool_ecm_state e g t o o' Hn Hm H) as (v & x' & y' & err & Ev & Ex & Ey & _ & XX & YY & _).
  rewrite Ex in Hx. rewrite Ey in Hy. injection Hx as ->. injection Hy as ->.
  assert (EL : u_length g (t_model t) = (2 * un_n g)%nat) by (destruct Hm as [E|[E|[]]]; rewrite <- E; reflexivity).
  assert (HZ : exists z2, u_start g (t_model t) (v_rnd e2) (t_guess t2) = Some z2 /\ forall q, (q < 2 * un_n g)%nat -> z2 q = o_x v q).
  { rewrite Hg. unfold u_start. assert (EM : among (t_model t) ["cm"; "cm_exp"]%string = false /\ among (t_model t) ["ecm"; "ecm_exp"]%string = true) by (destruct Hm as [E|[E|[]]]; rewrite <- E; split; reflexivity).
    destruct EM as [-> ->]. rewrite EL.
    destruct (guess_ecm_array (String.eqb (t_model t) "ecm_exp") (un_n g) (at_list (un_dseq g)) (un_str g) (v_rnd e2) a) as (s & u & -> & _ & _ & F0). cbn [start_of].
    assert (F : forall q, (q < 2 * un_n g)%nat -> g_x0 s q = Fin (o_x v q)).
    { intros q Hq. destruct (Nat.lt_ge_cases q (un_n g)) as [L|L].
      - rewrite (proj1 (F0 q L)). destruct (Req_EM_T _ 0) as [Z|_]; [exfalso; apply (not_0_INR _ (proj1 (Hd q L)) Z)|].
        f_equal. apply (stands_same _ _ _ _ (proj1 (Ha q L))). rewrite XX. unfold ecm_factor. destruct Hm as [E|[E|[]]]; rewrite <- E; reflexivity.
      - assert (L' : (q - un_n g < un_n g)%nat) by lia. replace q with (q - un_n g + un_n g)%nat by lia.
        rewrite (proj2 (F0 _ L')). destruct (Req_EM_T _ 0) as [Z|_]; [exfalso; apply (proj2 (Hd _ L') Z)|].
        f_equal. apply (stands_same _ _ _ _ (proj2 (Ha _ L'))). rewrite YY. unfold ecm_factor. destruct Hm as [E|[E|[]]]; rewrite <- E; reflexivity. }
    destruct (all_fin_some _ _ _ F) as (z2 & Hz). exists z2. split; [exact Hz|]. intros q Hq.
    pose proof (all_fin_inv _ _ _ Hz q Hq) as E. rewrite (F q Hq) in E. injection E as ->. reflexivity. }
  destruct HZ as (z2 & Hz & Az).
  destruct (u_rerun e g t o r v e2 t2 o2 z2) as (o2' & r2 & H2 & R2 & S2 & V2); try assumption.
  { cbn in Hm |- *; tauto. }
  { intros D A f HD HA. rewrite EL. assert (EA : A = A2 (un_n g) (at_list (un_dseq g)) (un_str g)) by (destruct Hm as [E|[E|[]]]; rewrite <- E in HA; injection HA as <-; reflexivity). subst A.
    destruct Hm as [E|[E|[]]]; rewrite <- E in *.
    - rewrite !(fun_ecm _ D _ _ _ _ Hme HD). rewrite (ecm_divisors_agree _ z2 (o_x v) Az). destruct (ecm_divisors _ _); [|discriminate].
      intros Ef. injection Ef as <-. eexists. split; [reflexivity|]. intros i Hi. cbv beta. f_equal. apply prime_ecm_agree; [exact Az|exact Hi].
    - rewrite !(fun_ecm_exp _ D _ _ _ _ Hme HD). rewrite (ecm_exp_divisors_agree _ z2 (o_x v) Az). destruct (ecm_exp_divisors _ _); [|discriminate].
      intros Ef. injection Ef as <-. eexists. split; [reflexivity|]. intros i Hi. cbv beta. f_equal. apply prime_ecm_exp_agree; [exact Az|exact Hi]. }
  assert (Hm2 : In (t_model t2) ["ecm"; "ecm_exp"]%string) by (rewrite (proj1 HR); exact Hm).
  destruct (tool_ecm_state e2 g t2 o2 o2' Hn Hm2 H2) as (v2 & x2 & y2 & _ & Ev2 & Ex2 & Ey2 & _ & XX2 & YY2 & _).
  rewrite V2 in Ev2. injection Ev2 as <-. exists o2', r2, x2, y2. do 5 (split; [assumption|]). intros i Hi. rewrite XX2, YY2, XX, YY. unfold ecm_factor. cbn [o_x].
  rewrite (proj1 HR), !Az by lia. split; reflexivity.
Qed.

(** * DirectedGraph *)
Lemma d_rerun e g t o r v e2 t2 o2 z2 : In (t_model t) ["dcm"; "dcm_exp"; "decm"; "decm_exp"]%string ->
  solved_of (d_result e g t o) = Some v -> d_report e g t o = Some r -> tolerance_reached (t_tol t) r -> resumes t t2 -> ds_bo o2 = None ->
  d_start g (t_model t) (v_rnd e2) (t_guess t2) = Some z2 ->
  (forall D A f, d_dispatch (t_model t) (t_method t) None = inl D -> d_args g (t_model t) None = Some A ->
     real_vec (d_length g (t_model t)) (run_entry (d_fun D) A (o_x v)) = Some f ->
     exists f2, real_vec (d_length g (t_model t)) (run_entry (d_fun D) A z2) = Some f2 /\ forall i, (i < d_length g (t_model t))%nat -> f2 i = f i) ->
  exists o2' r2, d_tool e2 g t2 o2 = (o2', None) /\ d_report e2 g t2 o2 = Some r2 /\ r_steps r2 = O /\
    solved_of (d_result e2 g t2 o2) = Some {| o_x := z2; o_inf := fun _ => false |}.
Proof.
  intros Hm Hv Hr Ht (E1 & E2 & E3 & E4) Hb Hz HC.
  assert (EA : among (t_model t) ["crema"; "crema-sparse"]%string = false) by (destruct Hm as [E|[E|[E|[E|[]]]]]; rewrite <- E; reflexivity).
  unfold d_report, d_result in Hr. unfold d_result in Hv. rewrite EA in Hr, Hv. unfold d_solver in Hr, Hv.
  destruct (rerun e _ e2 (t_options t2 (t_method t) (t_linsearch t2)) _ _ _ _ r v z2 Hr Ht Hv E4 E3 HC) as (D & l & HD & HS).
  assert (ER : d_result e2 g t2 o2 = Full z2 0 [l] [1] []).
  { unfold d_result. rewrite E1, EA. unfold d_solver. rewrite E2, Hz. exact HS. }
  destruct (d_completes e2 g t2 o2 z2 D {| o_x := z2; o_inf := fun _ => false |}) as (o2' & H).
  { rewrite E1. exact Hm. } { exact Hb. } { rewrite E1. exact Hz. } { rewrite E1, E2. exact HD. } { rewrite ER. reflexivity. }
  exists o2'. eexists. split; [exact H|]. unfold d_report. rewrite ER. split; [reflexivity|]. split; reflexivity.
Qed.
Lemma d_first g q : d_paired g -> (q < d_classes_n g)%nat -> (nth q (r_index_dseq (d_red g)) O < dn_n g)%nat /\ d_class g (nth q (r_index_dseq (d_red g)) O) = q.
Proof.
  intros HL Hq. pose proof (reduction_unique pair_leb pair_eqb (combine (dn_out g) (dn_in g)) pair_order) as (Hinc & _ & _ & _ & _ & HQ & HF & _).
  change (d_classes_n g) with (List.length (map fst (np_unique pair_leb pair_eqb (combine (dn_out g) (dn_in g))))) in Hq. rewrite map_length in Hq.
  destruct (nth_error (np_unique pair_leb pair_eqb (combine (dn_out g) (dn_in g))) q) as [k|] eqn:E; [|apply nth_error_None in E; lia].
  destruct (HF q k E) as (i & H1 & Hi & _). change (r_index_dseq (d_red g)) with (np_first pair_leb pair_eqb (combine (dn_out g) (dn_in g))). rewrite (nth_error_nth _ _ O H1).
  assert (L : (i < List.length (combine (dn_out g) (dn_in g)))%nat) by (apply nth_error_Some; rewrite Hi; discriminate). rewrite combine_length in L.
  split; [unfold dn_n; lia|]. destruct (HQ i k Hi) as (q' & Q1 & Q2). unfold d_class. change (r_invert_dseq (d_red g)) with (np_inverse pair_leb pair_eqb (combine (dn_out g) (dn_in g))).
  rewrite (nth_error_nth _ _ O Q1). destruct (Nat.lt_trichotomy q q') as [Q|[Q|Q]]; [|auto|].
  - destruct (Hinc _ _ _ _ Q E Q2) as [_ Z]. exfalso. apply Z. reflexivity.
  - destruct (Hinc _ _ _ _ Q Q2 E) as [_ Z]. exfalso. apply Z. reflexivity.
Qed.
Lemma d_first_below g : d_paired g ->
  forallb (fun i => Nat.ltb i (Nat.min (List.length (combine (dn_out g) (dn_in g))) (2 * dn_n g)) && Nat.ltb i (2 * dn_n g - List.length (combine (dn_out g) (dn_in g)))) (r_index_dseq (d_red g)) = true.
Proof.
  intros HL. assert (EC : List.length (combine (dn_out g) (dn_in g)) = dn_n g) by (rewrite combine_length; unfold d_paired, dn_n in *; lia). rewrite EC.
  apply forallb_forall. intros i Hi. destruct (In_nth _ _ O Hi) as (q & Hq & <-).
  assert (Hq' : (q < d_classes_n g)%nat).
  { destruct (reduction_directed (dn_out g) (dn_in g) (eq_sym HL)) as ((_ & _ & _ & _ & L & _) & L2 & _). unfold d_classes_n, d_red in *. rewrite L2, <- L. exact Hq. }
  destruct (d_first g q HL Hq') as [U _]. apply andb_true_intro. split; apply Nat.ltb_lt; lia.
Qed.
Lemma below_l q m : (q < m)%nat -> (q < 2 * m)%nat.
Proof. lia. Qed.
Lemma below_r q m : (q < m)%nat -> (q + m < 2 * m)%nat.
Proof. lia. Qed.
Lemma neglog_exp v i t : v i = Fin (exp (- t)) -> neglog_nonzero v i = Fin t.
Proof. intros E. rewrite (neglog_nonzero_pos v i _ E (exp_pos _)). rewrite ln_exp. f_equal. ring. Qed.
Lemma restart_dcm e g t o o' r x y a e2 t2 o2 : (0 < dn_n g)%nat -> d_paired g -> ds_bo o = None -> In (t_model t) ["dcm"; "dcm_exp"]%string -> In (t_method t) descent_methods ->
  d_tool e g t o = (o', None) -> d_report e g t o = Some r -> tolerance_reached (t_tol t) r -> ds_x o' = Some x -> ds_y o' = Some y ->
  resumes t t2 -> ds_bo o2 = None -> t_guess t2 = GArr (2 * dn_n g) a ->
  (forall i, (i < dn_n g)%nat -> a i = x i /\ a (i + dn_n g)%nat = y i) ->
  exists o2' r2 x2 y2, d_tool e2 g t2 o2 = (o2', None) /\ d_report e2 g t2 o2 = Some r2 /\ r_steps r2 = O /\
    ds_x o2' = Some x2 /\ ds_y o2' = Some y2 /\
    forall i, (i < dn_n g)%nat -> (nth i (dn_out g) O <> O -> x2 i = x i) /\ (nth i (dn_in g) O <> O -> y2 i = y i).
Proof.
  intros Hn HL Hb Hm Hme H Hr Ht Hx Hy HR Hb2 Hg Ha. destruct (tool_dcm_state e g t o o' Hn HL Hb Hm H) as (v & x' & y' & err & Ev & Ex & Ey & _ & XX & YY & _).
  rewrite Ex in Hx. rewrite Ey in Hy. injection Hx as ->. injection Hy as ->.
  assert (EV : forall q, o_inf v q = false).
  { unfold d_result in Ev. intros q. destruct (among _ _) in Ev; cbv zeta in Ev; match type of Ev with solved_of ?s = _ => destruct s as [w|w k ns ds als| |] end; try discriminate; injection Ev as <-; reflexivity. }
  assert (EL : d_length g (t_model t) = (2 * d_classes_n g)%nat) by (destruct Hm as [E|[E|[]]]; rewrite <- E; reflexivity).
  set (ko := fun i => INR (nth i (rnz_dseq_out (d_red g)) O)). set (ki := fun i => INR (nth i (rnz_dseq_in (d_red g)) O)).
  destruct (reduction_directed (dn_out g) (dn_in g) (eq_sym HL)) as (_ & RN & _ & _ & _ & NO & NI). fold (d_red g) in RN, NO, NI. fold (d_classes_n g) in RN. rewrite <- RN in NO, NI.
  assert (HZ : exists z2, d_start g (t_model t) (v_rnd e2) (t_guess t2) = Some z2 /\
    forall q, (q < d_classes_n g)%nat -> (ko q <> 0 -> z2 q = o_x v q) /\ (ki q <> 0 -> z2 (q + d_classes_n g)%nat = o_x v (q + d_classes_n g)%nat)).
  { rewrite Hg. unfold d_start. cbv zeta. rewrite EL.
    assert (EC : List.length (combine (dn_out g) (dn_in g)) = dn_n g) by (rewrite combine_length; unfold d_paired, dn_n in *; lia).
    assert (VV : forall q, (q < d_classes_n g)%nat -> a (nth q (r_index_dseq (d_red g)) O) = dir_factor "dcm" (t_model t) v q /\
                  a (nth q (r_index_dseq (d_red g)) O + dn_n g)%nat = dir_factor "dcm" (t_model t) v (q + d_classes_n g)%nat).
    { intros q Hq. destruct (d_first g q HL Hq) as [U1 U2]. destruct (Ha _ U1) as [-> ->]. rewrite XX, YY, U2. unfold drop. split; reflexivity. }
    assert (FE : forall q, exp_neg v q = exp (- o_x v q)) by (intros q; unfold exp_neg; rewrite EV; reflexivity).
    destruct Hm as [E|[E|[]]]; rewrite <- E in *; cbn -[set_initial_guess_dcm set_initial_guess_dcm_exp all_fin Nat.mul].
    - unfold set_initial_guess_dcm, dcm_values. cbv zeta. fold (d_red g). rewrite (d_first_below g HL). cbn [gbind start_of g_x0 fst snd]. rewrite EC. fold (d_classes_n g) ko ki.
      match goal with |- exists z2, all_fin _ ?w = Some z2 /\ _ => assert (F : forall q, (q < 2 * d_classes_n g)%nat -> exists s, w q = Fin s) end.
      { intros q Hq. unfold cat2. destruct (Nat.ltb _ _); unfold where_zero; destruct (Req_EM_T _ 0); eexists; reflexivity. }
      destruct (all_fin_some' _ _ F) as (z2 & Hz). exists z2. split; [exact Hz|]. intros q Hq. destruct (VV q Hq) as [V1 V2]. split; intros Hk.
      + pose proof (all_fin_inv _ _ _ Hz q (below_l q (d_classes_n g) Hq)) as G. rewrite cat2_l, where_zero_off in G by assumption. injection G as G. exact (eq_trans (eq_sym G) V1).
      + pose proof (all_fin_inv _ _ _ Hz (q + d_classes_n g)%nat (below_r q (d_classes_n g) Hq)) as G. rewrite cat2_r, where_zero_off in G by assumption. injection G as G. exact (eq_trans (eq_sym G) V2).
    - unfold set_initial_guess_dcm_exp, dcm_values. cbv zeta. fold (d_red g). rewrite (d_first_below g HL). cbn [gbind start_of g_x0 fst snd]. rewrite EC. fold (d_classes_n g) ko ki.
      match goal with |- exists z2, all_fin _ ?w = Some z2 /\ _ => assert (F : forall q, (q < d_classes_n g)%nat -> (exists s, w q = Fin s /\ (ko q <> 0 -> s = o_x v q)) /\
        (exists s, w (q + d_classes_n g)%nat = Fin s /\ (ki q <> 0 -> s = o_x v (q + d_classes_n g)%nat))) end.
      { intros q Hq. destruct (VV q Hq) as [V1 V2]. unfold dir_factor in V1, V2. change (String.eqb "dcm_exp" "dcm") with false in V1, V2. rewrite FE in V1, V2. rewrite cat2_l, cat2_r by exact Hq. split.
        - unfold where_zero. destruct (Req_EM_T (ko q) 0) as [Z|Z]; eexists; (split; [|intros Z']); [reflexivity|contradiction|apply neglog_exp; f_equal; exact V1|reflexivity].
        - unfold where_zero. destruct (Req_EM_T (ki q) 0) as [Z|Z]; eexists; (split; [|intros Z']); [reflexivity|contradiction|apply neglog_exp; f_equal; exact V2|reflexivity]. }
      match goal with |- exists z2, all_fin _ ?w = Some z2 /\ _ => assert (F' : forall q, (q < 2 * d_classes_n g)%nat -> exists s, w q = Fin s) end.
      { intros q Hq. destruct (Nat.lt_ge_cases q (d_classes_n g)) as [L|L]; [destruct (F q L) as [(s & -> & _) _]; eexists; reflexivity|].
        destruct (F (q - d_classes_n g)%nat ltac:(lia)) as [_ (s & G & _)]. replace q with (q - d_classes_n g + d_classes_n g)%nat by lia. exists s. exact G. }
      destruct (all_fin_some' _ _ F') as (z2 & Hz). exists z2. split; [exact Hz|]. intros q Hq. destruct (F q Hq) as [(s1 & S1 & S1') (s2 & S2 & S2')].
      pose proof (all_fin_inv _ _ _ Hz q (below_l q (d_classes_n g) Hq)) as G1. pose proof (all_fin_inv _ _ _ Hz (q + d_classes_n g)%nat (below_r q (d_classes_n g) Hq)) as G2. rewrite S1 in G1. rewrite S2 in G2.
      injection G1 as G1. injection G2 as G2. split; intros Hk; [exact (eq_trans (eq_sym G1) (S1' Hk))|exact (eq_trans (eq_sym G2) (S2' Hk))]. }
  destruct HZ as (z2 & Hz & Az).
  assert (AG : agree_on (d_classes_n g) (nz_index_out (d_red g)) (nz_index_in (d_red g)) z2 (o_x v)).
  { destruct NO as [_ NO]. destruct NI as [_ NI]. split; intros q Hq; [apply NO in Hq|apply NI in Hq]; destruct Hq as [Hq1 Hq2]; apply (Az q Hq1); assumption. }
  destruct (d_rerun e g t o r v e2 t2 o2 z2) as (o2' & r2 & H2 & R2 & S2 & V2); try assumption.
  { cbn in Hm |- *; tauto. }
  { intros D A f HD HA. rewrite EL. assert (EA : A = d_args_dcm g) by (destruct Hm as [E|[E|[]]]; rewrite <- E in HA; injection HA as <-; reflexivity). subst A. unfold d_args_dcm.
    destruct Hm as [E|[E|[]]]; rewrite <- E in *.
    - rewrite !(fun_dcm _ D _ _ _ _ _ _ _ Hme HD). rewrite (dcm_divisors_agree _ _ _ z2 (o_x v) (proj1 AG) (proj2 AG)). destruct (dcm_divisors _ _ _ _); [|discriminate]. intros Ef. injection Ef as <-. eexists. split; [reflexivity|]. intros i Hi. cbv beta. f_equal. apply prime_dcm_agree; exact AG.
    - rewrite !(fun_dcm_exp _ D _ _ _ _ _ _ _ Hme HD). intros Ef. injection Ef as <-. eexists. split; [reflexivity|]. intros i Hi. cbv beta. f_equal. apply prime_dcm_exp_agree; exact AG. }
  assert (Hm2 : In (t_model t2) ["dcm"; "dcm_exp"]%string) by (rewrite (proj1 HR); exact Hm).
  destruct (tool_dcm_state e2 g t2 o2 o2' Hn HL Hb2 Hm2 H2) as (v2 & x2 & y2 & _ & Ev2 & Ex2 & Ey2 & _ & XX2 & YY2 & _).
  rewrite V2 in Ev2. injection Ev2 as <-. exists o2', r2, x2, y2. do 5 (split; [assumption|]). intros i Hi. rewrite XX2, YY2, XX, YY, (proj1 HR). unfold dir_factor, drop, exp_neg.
  destruct (d_node_class g i HL Hi) as (_ & _ & _ & HC). destruct (d_class_degrees g i HL Hi) as [D1 D2]. destruct (Az _ HC) as [A1 A2].
  split; intros Hk.
  - assert (Ek : z2 (d_class g i) = o_x v (d_class g i)) by (apply A1; unfold ko; unfold at_list in D1; rewrite D1; apply not_0_INR, Hk).
    destruct (String.eqb _ _); cbn [o_x o_inf]; rewrite ?EV, Ek; reflexivity.
  - assert (Ek : z2 (d_class g i + d_classes_n g)%nat = o_x v (d_class g i + d_classes_n g)%nat) by (apply A2; unfold ki; unfold at_list in D2; rewrite D2; apply not_0_INR, Hk).
    destruct (String.eqb _ _); cbn [o_x o_inf]; rewrite ?EV, Ek; reflexivity.
Qed.
Lemma restart_decm e g t o o' r x y bo bi a e2 t2 o2 : In (t_model t) ["decm"; "decm_exp"]%string -> In (t_method t) descent_methods ->
  (forall i, (i < dn_n g)%nat -> nth i (dn_out g) O <> O /\ nth i (dn_in g) O <> O /\ dn_sout g i <> 0 /\ dn_sin g i <> 0) ->
  d_tool e g t o = (o', None) -> d_report e g t o = Some r -> tolerance_reached (t_tol t) r ->
  ds_x o' = Some x -> ds_y o' = Some y -> ds_bo o' = Some bo -> ds_bi o' = Some bi ->
  resumes t t2 -> ds_bo o2 = None -> t_guess t2 = GArr (4 * dn_n g) a ->
  (forall i, (i < dn_n g)%nat -> a i = x i /\ a (i + dn_n g)%nat = y i /\ a (i + 2 * dn_n g)%nat = bo i /\ a (i + 3 * dn_n g)%nat = bi i) ->
  exists o2' r2 x2 y2 bo2 bi2, d_tool e2 g t2 o2 = (o2', None) /\ d_report e2 g t2 o2 = Some r2 /\ r_steps r2 = O /\
    ds_x o2' = Some x2 /\ ds_y o2' = Some y2 /\ ds_bo o2' = Some bo2 /\ ds_bi o2' = Some bi2 /\
    forall i, (i < dn_n g)%nat -> x2 i = x i /\ y2 i = y i /\ bo2 i = bo i /\ bi2 i = bi i.
Proof.
  intros Hm Hme Hd H Hr Ht Hx Hy Ho Hi HR Hb2 Hg Ha. destruct (tool_decm_state e g t o o' Hm H) as (v & Ev & Ex & Ey & Eo & Ei).
  set (s := dir_factor "decm" (t_model t) v) in *. rewrite Ex in Hx. rewrite Ey in Hy. rewrite Eo in Ho. rewrite Ei in Hi.
  injection Hx as <-. injection Hy as <-. injection Ho as <-. injection Hi as <-. unfold drop in *.
  assert (EV : forall q, o_inf v q = false).
  { unfold d_result in Ev. intros q. destruct (among _ _) in Ev; cbv zeta in Ev; match type of Ev with solved_of ?s = _ => destruct s as [w|w k ns ds als| |] end; try discriminate; injection Ev as <-; reflexivity. }
  assert (EL : d_length g (t_model t) = (4 * dn_n g)%nat) by (destruct Hm as [E|[E|[]]]; rewrite <- E; reflexivity).
  assert (AS : forall q, (q < 4 * dn_n g)%nat -> a q = s q).
  { apply four_blocks; intros i L; destruct (Ha i L) as (A1 & A2 & A3 & A4); assumption. }
  assert (HN : forall q, (q < 4 * dn_n g)%nat -> decm_constraint (dn_n g) (at_list (dn_out g)) (at_list (dn_in g)) (dn_sout g) (dn_sin g) q <> 0).
  { apply four_blocks; intros i L; destruct (Hd i L) as (D1 & D2 & D3 & D4); [rewrite constraint_0 by exact L; apply not_0_INR, D1|rewrite constraint_1 by exact L; apply not_0_INR, D2|rewrite constraint_2 by exact L; exact D3|rewrite constraint_3 by exact L; exact D4]. }
  assert (HZ : exists z2, d_start g (t_model t) (v_rnd e2) (t_guess t2) = Some z2 /\ forall q, (q < 4 * dn_n g)%nat -> z2 q = o_x v q).
  { assert (G : forall w, (forall q, (q < 4 * dn_n g)%nat -> w q = Fin (o_x v q)) -> exists z2, all_fin (4 * dn_n g) w = Some z2 /\ forall q, (q < 4 * dn_n g)%nat -> z2 q = o_x v q).
    { intros w F. destruct (all_fin_some _ _ _ F) as (z2 & Hz). exists z2. split; [exact Hz|]. intros q Hq. pose proof (all_fin_inv _ _ _ Hz q Hq) as E. rewrite (F q Hq) in E. injection E as ->. reflexivity. }
    rewrite Hg. unfold d_start. cbv zeta. rewrite EL. unfold s, dir_factor in AS.
    destruct Hm as [E|[E|[]]]; rewrite <- E in *; cbn -[set_initial_guess_decm set_initial_guess_decm_exp all_fin Nat.mul].
    - destruct (guess_decm_array (dn_n g) (at_list (dn_out g)) (at_list (dn_in g)) (dn_sout g) (dn_sin g) (v_rnd e2) a) as (u & w & -> & _ & F0). cbn [start_of]. apply G. intros q Hq.
      rewrite (proj2 (F0 q Hq)). destruct (Req_EM_T _ 0) as [Z|_]; [exfalso; exact (HN q Hq Z)|]. f_equal. exact (AS q Hq).
    - assert (AE : forall q, (q < 4 * dn_n g)%nat -> a q = exp (- o_x v q)) by (intros q Hq; rewrite (AS q Hq); change (String.eqb "decm_exp" "decm") with false; cbv iota; unfold exp_neg; rewrite EV; reflexivity).
      destruct (guess_decm_exp_array (dn_n g) (at_list (dn_out g)) (at_list (dn_in g)) (dn_sout g) (dn_sin g) (v_rnd e2) a) as (u & w & -> & _ & F0).
      { intros q Hq. rewrite (AE q Hq). apply exp_pos. }
      cbn [start_of]. apply G. intros q Hq. rewrite (proj2 (F0 q Hq)). destruct (Req_EM_T _ 0) as [Z|_]; [exfalso; exact (HN q Hq Z)|]. rewrite (AE q Hq), ln_exp. f_equal. ring. }
  destruct HZ as (z2 & Hz & Az).
  destruct (d_rerun e g t o r v e2 t2 o2 z2) as (o2' & r2 & H2 & R2 & S2 & V2); try assumption.
  { cbn in Hm |- *; tauto. }
  { intros D A f HD HA. rewrite EL. assert (EA : A = A4 (dn_n g) (at_list (dn_out g)) (at_list (dn_in g)) (dn_sout g) (dn_sin g)) by (destruct Hm as [E|[E|[]]]; rewrite <- E in HA; injection HA as <-; reflexivity). subst A.
    destruct Hm as [E|[E|[]]]; rewrite <- E in *.
    - rewrite !(fun_decm _ D _ _ _ _ _ _ Hme HD). rewrite (decm_divisors_agree _ _ _ _ _ z2 (o_x v) Az). destruct (decm_divisors _ _ _ _ _ _); [|discriminate]. intros Ef. injection Ef as <-. eexists. split; [reflexivity|]. intros i Hi. cbv beta. f_equal. apply prime_decm_agree; [exact Az|exact Hi].
    - rewrite !(fun_decm_exp_entry _ D _ _ _ _ _ _ Hme HD). intros Ef. pose proof (all_fin_inv _ _ _ Ef) as Fi.
      destruct (all_fin_some (4 * dn_n g) (fun q => fopp (floglikelihood_prime_decm_exp (dn_n g) (at_list (dn_out g)) (at_list (dn_in g)) (dn_sout g) (dn_sin g) z2 q)) f) as (f2 & E2).
      { intros i Hi. rewrite <- (Fi i Hi). f_equal. apply fdecm_exp_prime_agree; [exact Az|exact Hi]. }
      exists f2. split; [exact E2|]. intros i Hi. pose proof (all_fin_inv _ _ _ E2 i Hi) as G2. cbv beta in G2.
      rewrite (fdecm_exp_prime_agree _ _ _ _ _ z2 (o_x v) i Az Hi) in G2. pose proof (Fi i Hi) as G1. cbv beta in G1. rewrite G2 in G1. injection G1 as ->. reflexivity. }
  assert (Hm2 : In (t_model t2) ["decm"; "decm_exp"]%string) by (rewrite (proj1 HR); exact Hm).
  destruct (tool_decm_state e2 g t2 o2 o2' Hm2 H2) as (v2 & Ev2 & Ex2 & Ey2 & Eo2 & Ei2). rewrite V2 in Ev2. injection Ev2 as <-.
  exists o2', r2. do 4 eexists. do 3 (split; [assumption|]). split; [exact Ex2|]. split; [exact Ey2|]. split; [exact Eo2|]. split; [exact Ei2|].
  assert (SS : forall q, (q < 4 * dn_n g)%nat -> dir_factor "decm" (t_model t2) {| o_x := z2; o_inf := fun _ => false |} q = s q).
  { intros q Hq. unfold s, dir_factor, exp_neg. rewrite (proj1 HR). destruct (String.eqb _ _); cbn [o_x o_inf]; rewrite ?EV, (Az q Hq); reflexivity. }
  intros i Li. unfold drop. rewrite !SS by lia. repeat split; reflexivity.
Qed.

(** * CReMa on a given adjacency matrix *)
Lemma restart_crema e g t o o' r p beta a e2 t2 o2 : t_model t = "crema"%string -> In (t_method t) descent_methods -> hollow p -> t_adjacency t = AdjMatrix p -> t_adjacency t2 = AdjMatrix p ->
  u_tool e g t o = (o', None) -> u_report e g t o = Some r -> tolerance_reached (t_tol t) r -> us_beta o' = Some beta ->
  (forall i, (i < un_n g)%nat -> un_str g i = 0 -> beta i = 0) -> positive_rates (un_n g) p beta ->
  resumes t t2 -> t_guess t2 = GArr (un_n g) a -> (forall i, (i < un_n g)%nat -> a i = beta i) ->
  exists o2' r2 beta2, u_tool e2 g t2 o2 = (o2', None) /\ u_report e2 g t2 o2 = Some r2 /\ r_steps r2 = O /\
    us_beta o2' = Some beta2 /\ forall i, (i < un_n g)%nat -> beta2 i = beta i.
Proof.
  intros Hm Hme HH HJ HJ2 H Hr Ht HB Hz0 HP (E1 & E2 & E3 & E4) Hg Ha.
  assert (Hm' : In (t_model t) ["crema"; "crema-sparse"]%string) by (rewrite Hm; left; reflexivity).
  destruct (u_beta_state e g t o o' Hm' H) as (v & Ev & EB). rewrite EB in HB. injection HB as <-.
  assert (RR : forall e t o, t_model t = "crema"%string -> t_adjacency t = AdjMatrix p ->
    u_result e g t o = u_solver e g t "crema" (t_method t) (v_rnd e) (t_guess t) (Some (Triples (triu_edges (un_n g) p)))).
  { clear. intros e t o Hm HJ. unfold u_result, u_set_adjacency, u_call_adjacency. cbn [c_model c_adjacency]. rewrite Hm, HJ. reflexivity. }
  assert (HZ : exists z2, u_start g "crema" (v_rnd e2) (t_guess t2) = Some z2 /\ forall q, (q < un_n g)%nat -> z2 q = o_x v q).
  { rewrite Hg. unfold u_start. names. destruct (guess_crema_array (un_n g) (un_str g) (v_rnd e2) a) as (s & u & -> & _ & F0). cbn [start_of]. change (u_length g "crema") with (un_n g).
    assert (F : forall q, (q < un_n g)%nat -> g_x0 s q = Fin (o_x v q)).
    { intros q Hq. rewrite (proj2 (F0 q)). f_equal. destruct (Req_EM_T _ 0) as [Z|_]; [symmetry; exact (Hz0 q Hq Z)|apply Ha, Hq]. }
    destruct (all_fin_some _ _ _ F) as (z2 & Hz). exists z2. split; [exact Hz|]. intros q Hq.
    pose proof (all_fin_inv _ _ _ Hz q Hq) as E. rewrite (F q Hq) in E. injection E as ->. reflexivity. }
  destruct HZ as (z2 & Hz & Az). pose proof Ev as Hv. unfold u_report in Hr. rewrite (RR e t o Hm HJ) in Hr, Hv. unfold u_solver in Hr, Hv.
  destruct (rerun e _ e2 (t_options t2 (t_method t) (t_linsearch t2)) _ _ _ _ r v z2 Hr Ht Hv E4 E3) as (D & l & HD & HS).
  { intros D A f HD HA. injection HA as <-. change (u_length g "crema") with (un_n g). rewrite !(fun_crema _ D _ _ _ _ Hme HD). intros Ef.
    rewrite (prime_crema_agree (un_n g) (un_str g) (triu_edges (un_n g) p) z2 (o_x v)); [exists f; split; [exact Ef|reflexivity]|].
    intros i j w Hin. apply in_triu in Hin. split; apply Az; lia. }
  assert (ER : u_result e2 g t2 o2 = Full z2 0 [l] [1] []).
  { rewrite (RR e2 t2 o2) by congruence. unfold u_solver. rewrite Hz, E2. exact HS. }
  edestruct (u_completes_crema e2 g t2 p o2 z2 D {| o_x := z2; o_inf := fun _ => false |} true) as (o2' & H2).
  { congruence. }
  { intros i j w Hin. cbn [o_x]. apply in_triu in Hin. destruct Hin as (L & _ & N). rewrite !Az by lia. apply HP; [|exact N]. assert (i <> j) by (intros ->; apply N, HH). lia. }
  { exact Hz. } { rewrite E2. exact HD. } { rewrite ER. reflexivity. }
  { unfold u_set_adjacency, u_call, u_call_adjacency. cbn [c_model c_adjacency]. rewrite HJ2. reflexivity. }
  { reflexivity. } { reflexivity. } { reflexivity. } { discriminate. }
  assert (Hm2 : In (t_model t2) ["crema"; "crema-sparse"]%string) by (rewrite E1; exact Hm').
  destruct (u_beta_state e2 g t2 o2 o2' Hm2 H2) as (v2 & Ev2 & EB2). rewrite ER in Ev2. injection Ev2 as <-.
  exists o2'. eexists. exists z2. split; [exact H2|]. unfold u_report. rewrite ER. split; [reflexivity|]. split; [reflexivity|]. split; [exact EB2|]. exact Az.
Qed.
Lemma restart_crema_dir e g t o o' r p bo bi a e2 t2 o2 : t_model t = "crema"%string -> In (t_method t) descent_methods -> t_adjacency t = AdjMatrix p -> t_adjacency t2 = AdjMatrix p ->
  d_tool e g t o = (o', None) -> d_report e g t o = Some r -> tolerance_reached (t_tol t) r -> ds_bo o' = Some bo -> ds_bi o' = Some bi ->
  (forall i, (i < dn_n g)%nat -> (dn_sout g i = 0 -> bo i = 0) /\ (dn_sin g i = 0 -> bi i = 0)) -> positive_rates_dir (dn_n g) p bo bi ->
  resumes t t2 -> t_guess t2 = GArr (2 * dn_n g) a -> (forall i, (i < dn_n g)%nat -> a i = bo i /\ a (i + dn_n g)%nat = bi i) ->
  exists o2' r2 bo2 bi2, d_tool e2 g t2 o2 = (o2', None) /\ d_report e2 g t2 o2 = Some r2 /\ r_steps r2 = O /\
    ds_bo o2' = Some bo2 /\ ds_bi o2' = Some bi2 /\ forall i, (i < dn_n g)%nat -> bo2 i = bo i /\ bi2 i = bi i.
Proof.
  intros Hm Hme HJ HJ2 H Hr Ht HBo HBi Hz0 HP (E1 & E2 & E3 & E4) Hg Ha.
  assert (Hm' : In (t_model t) ["crema"; "crema-sparse"]%string) by (rewrite Hm; left; reflexivity).
  destruct (d_beta_state e g t o o' Hm' H) as (v & Ev & EBo & EBi). rewrite EBo in HBo. rewrite EBi in HBi. injection HBo as <-. injection HBi as <-. unfold drop in *.
  assert (RR : forall e t o, t_model t = "crema"%string -> t_adjacency t = AdjMatrix p ->
    d_result e g t o = d_solver e g t "crema" (t_method t) (t_linsearch t) (v_rnd e) (t_guess t) (Some (Triples (all_edges (dn_n g) p)))).
  { clear. intros e t o Hm HJ. unfold d_result, d_set_adjacency, d_call_adjacency. cbn [c_model c_adjacency]. rewrite Hm, HJ. reflexivity. }
  assert (HZ : exists z2, d_start g "crema" (v_rnd e2) (t_guess t2) = Some z2 /\ forall q, (q < 2 * dn_n g)%nat -> z2 q = o_x v q).
  { rewrite Hg. unfold d_start. cbv zeta. names. destruct (guess_crema_directed_array (dn_n g) (dn_sout g) (dn_sin g) (v_rnd e2) a) as (s & u & -> & _ & _ & F0). cbn [start_of]. change (d_length g "crema") with (2 * dn_n g)%nat.
    assert (F : forall q, (q < 2 * dn_n g)%nat -> g_x0 s q = Fin (o_x v q)).
    { intros q Hq. destruct (Nat.lt_ge_cases q (dn_n g)) as [L|L].
      - rewrite (proj1 (F0 q L)). f_equal. destruct (Req_EM_T _ 0) as [Z|_]; [symmetry; exact (proj1 (Hz0 q L) Z)|apply Ha, L].
      - assert (L' : (q - dn_n g < dn_n g)%nat) by lia. pose proof (Hz0 _ L') as [_ Z0]. pose proof (Ha _ L') as [_ A0]. replace (q - dn_n g + dn_n g)%nat with q in * by lia.
        pose proof (proj2 (F0 _ L')) as F1. replace (q - dn_n g + dn_n g)%nat with q in F1 by lia. rewrite F1. f_equal. destruct (Req_EM_T _ 0) as [Z|_]; [symmetry; exact (Z0 Z)|exact A0]. }
    destruct (all_fin_some _ _ _ F) as (z2 & Hz). exists z2. split; [exact Hz|]. intros q Hq.
    pose proof (all_fin_inv _ _ _ Hz q Hq) as E. rewrite (F q Hq) in E. injection E as ->. reflexivity. }
  destruct HZ as (z2 & Hz & Az). pose proof Ev as Hv. unfold d_report in Hr. rewrite (RR e t o Hm HJ) in Hr, Hv. unfold d_solver in Hr, Hv.
  destruct (rerun e _ e2 (t_options t2 (t_method t) (t_linsearch t2)) _ _ _ _ r v z2 Hr Ht Hv E4 E3) as (D & l & HD & HS).
  { intros D A f HD HA. rewrite (dargs_crema g) in HA. injection HA as <-. change (d_length g "crema") with (2 * dn_n g)%nat. unfold d_args_crema. rewrite !(fun_crema_dir _ D _ _ _ _ _ _ _ Hme HD). intros Ef.
    rewrite (prime_crema_dir_agree (dn_n g) (dn_sout g) (dn_sin g) (all_edges (dn_n g) p) (nz_real (dn_n g) (dn_sout g)) (nz_real (dn_n g) (dn_sin g)) z2 (o_x v)); [exists f; split; [exact Ef|reflexivity]|].
    intros i j w Hin. apply in_all in Hin. split; apply Az; lia. }
  assert (ER : d_result e2 g t2 o2 = Full z2 0 [l] [1] []).
  { rewrite (RR e2 t2 o2) by congruence. unfold d_solver. rewrite Hz, E2. exact HS. }
  edestruct (d_completes_crema e2 g t2 p o2 z2 D {| o_x := z2; o_inf := fun _ => false |} true) as (o2' & H2).
  { congruence. }
  { intros i j Hi Hj N. cbn [o_x]. unfold drop. rewrite !Az by lia. exact (HP i j Hi Hj N). }
  { exact Hz. } { rewrite E2. exact HD. } { rewrite ER. reflexivity. }
  { unfold d_set_adjacency, d_call, d_call_adjacency. cbn [c_model c_adjacency]. rewrite HJ2. reflexivity. }
  { reflexivity. } { reflexivity. } { reflexivity. } { discriminate. }
  assert (Hm2 : In (t_model t2) ["crema"; "crema-sparse"]%string) by (rewrite E1; exact Hm').
  destruct (d_beta_state e2 g t2 o2 o2' Hm2 H2) as (v2 & Ev2 & EBo2 & EBi2). rewrite ER in Ev2. injection Ev2 as <-.
  exists o2'. eexists. exists z2, (drop (dn_n g) z2). split; [exact H2|]. unfold d_report. rewrite ER. split; [reflexivity|]. split; [reflexivity|]. split; [exact EBo2|]. split; [exact EBi2|].
  intros i Hi. unfold drop. split; apply Az; lia.
Qed.
