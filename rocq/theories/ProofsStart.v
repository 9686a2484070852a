(** Calls of [solve_tool] that make no step leave the starting point. *)
From Coq Require Import Reals List Arith Bool String Lia Lra.
From Verif Require Import Base SpecDeriv SpecGraph SpecEnsemble SpecWeighted SpecDirected SpecCReMa SpecNetwork SpecLinsearch SpecDispatch SpecRun SpecSolver SpecSolve SpecGuess SpecTool
  ModelCM ModelECM ModelDCM ModelDECM ModelCReMa ModelNetwork ModelLinsearch ModelSolver ModelDispatch ModelGuess ModelRun ModelSolve ModelTool SpecStart.
From Verif Require Import ProofsGraph ProofsUnique ProofsCM ProofsMainCM ProofsECM ProofsMainECM ProofsCReMa ProofsMainCReMa ProofsAdjacency ProofsSolver ProofsConverged ProofsGuess ProofsGuessW ProofsGuessV ProofsDispatch ProofsRun ProofsSolve ProofsSolveU ProofsSolveD ProofsTool ProofsToolD.
Import ListNotations.
Local Open Scope R_scope.

Lemma loop_idle {V M S : Type} (N : numerics V M S) P Opt fuel : forall s x k ns ds als,
  solver_loop N P Opt fuel s = Full x k ns ds als -> (s_n s <= k)%nat /\ (k = s_n s -> x = s_x s).
Proof.
  induction fuel as [|fuel IH]; intros s x k ns ds als H; [discriminate|]. cbn [solver_loop] in H.
  destruct (solver_continue N Opt s).
  - destruct (solver_step N P Opt s) as [s'|] eqn:E; [|discriminate]. destruct (IH _ _ _ _ _ _ H) as [L _].
    assert (E' : s_n s' = (s_n s + 1)%nat).
    { unfold solver_step in E. destruct (solver_dx N P Opt s) as [dx|]; [|discriminate]. cbn [sbind] in E.
      destruct (solver_alfa N P Opt s dx) as [al|]; [|discriminate]. cbn [sbind] in E. destruct (p_fun P _) as [f|]; [|discriminate]. cbn [sbind] in E.
      destruct (_ && _); [discriminate|]. injection E as <-. reflexivity. }
    split; lia.
  - destruct (o_full_return Opt); [|discriminate]. injection H as <- <- _ _ _. split; [lia|reflexivity].
Qed.
Lemma solver_idle linsolve ok m P opt z : o_max_steps opt = O \/ (exists r, report_of (solver (run_numerics linsolve ok m) P opt z) = Some r /\ r_steps r = O) ->
  forall v, solved_of (solver (run_numerics linsolve ok m) P opt z) = Some v -> v = {| o_x := z; o_inf := fun _ => false |}.
Proof.
  unfold solver. destruct (solver_init _ P opt z) as [s|] eqn:E; [|intros _ v Hv; discriminate].
  assert (Es : s_x s = z /\ s_n s = O) by (unfold solver_init in E; destruct (p_fun P z); [|discriminate]; injection E as <-; split; reflexivity).
  destruct Es as [Ex En]. intros [H0|(r & Hr & H0)] v Hv.
  - rewrite H0 in Hv. cbn [solver_loop] in Hv. unfold solver_continue in Hv. rewrite En, H0, Nat.ltb_irrefl, andb_false_r in Hv. cbn [andb] in Hv.
    rewrite <- Ex. destruct (o_full_return opt); injection Hv as <-; reflexivity.
  - destruct (solver_loop _ P opt _ s) as [x|x k ns ds als| |] eqn:EL; try discriminate. cbn [report_of] in Hr. injection Hr as <-. cbn [r_steps] in H0.
    destruct (loop_idle _ _ _ _ _ _ _ _ _ _ EL) as [_ HX]. cbn [solved_of] in Hv. injection Hv as <-. rewrite HX by congruence. rewrite Ex. reflexivity.
Qed.
Lemma solve_with_idle e opt m d a x0 v : o_max_steps opt = O \/ (exists r, report_of (solve_with e opt m d a x0) = Some r /\ r_steps r = O) ->
  solved_of (solve_with e opt m d a x0) = Some v -> exists z, x0 = Some z /\ v = {| o_x := z; o_inf := fun _ => false |}.
Proof.
  unfold solve_with. destruct d as [D|]; [|intros _ H; discriminate]. destruct a as [A|]; [|intros _ H; discriminate]. destruct x0 as [z|]; [|intros _ H; discriminate].
  intros HI Hv. exists z. split; [reflexivity|]. exact (solver_idle _ _ _ _ _ _ HI v Hv).
Qed.

(** * UndirectedGraph *)
Lemma u_idle e g t o v : In (t_model t) ["cm"; "cm_exp"; "ecm"; "ecm_exp"]%string -> no_step t (u_report e g t o) -> solved_of (u_result e g t o) = Some v ->
  exists z, u_start g (t_model t) (v_rnd e) (t_guess t) = Some z /\ v = {| o_x := z; o_inf := fun _ => false |}.
Proof.
  intros Hm HI Hv. assert (EA : among (t_model t) ["crema"; "crema-sparse"]%string = false) by (destruct Hm as [E|[E|[E|[E|[]]]]]; rewrite <- E; reflexivity).
  unfold u_report, u_result in *. rewrite EA in *. unfold u_solver in *. eapply solve_with_idle; [|exact Hv]. exact HI.
Qed.
Lemma u_class_error g i : (i < un_n g)%nat -> nth_error (un_dseq g) i = Some (nth i (un_dseq g) O) /\
  nth_error (snd (fst (degree_reduction_und (un_dseq g)))) i = Some (u_class g i) /\ (u_class g i < u_length g "cm")%nat.
Proof.
  intros Hi. pose proof (reduction_unique Nat.leb Nat.eqb (un_dseq g) nat_order) as (_ & _ & _ & _ & _ & Hq & _).
  destruct (Hq i (nth i (un_dseq g) O) (nth_error_nth' _ _ Hi)) as (q & Q1 & _). split; [apply nth_error_nth', Hi|].
  split; [unfold u_class, degree_reduction_und; cbn [fst snd]; rewrite (nth_error_nth _ _ O Q1); exact Q1|].
  exact (proj1 (u_classes g) i Hi).
Qed.
Lemma start_cm_named e g t o o' nm : (0 < un_n g)%nat -> us_beta o = None -> In (t_model t) ["cm"; "cm_exp"]%string ->
  t_guess t = GStr nm -> In nm binary_names -> draws (v_rnd e) -> no_step t (u_report e g t o) -> u_tool e g t o = (o', None) ->
  exists x, us_x o' = Some x /\ forall i, (i < un_n g)%nat -> nth i (un_dseq g) O <> O ->
    exists q, binary_start (volume (un_dseq g) / 2) (v_rnd e q) nm (INR (nth i (un_dseq g) O)) (x i).
Proof.
  intros Hn Hb Hm Hg Hnm Hr HI H. destruct (tool_cm_state e g t o o' Hn Hb Hm H) as (v & x & err & Ev & Ex & _ & XX & _).
  destruct (u_idle e g t o v ltac:(cbn in Hm |- *; tauto) HI Ev) as (z & Ez & ->). exists x. split; [exact Ex|]. intros i Hi Hd. exists (u_class g i).
  destruct (u_class_error g i Hi) as (N1 & N2 & N3). rewrite XX, Hg in *. unfold u_start in Ez.
  destruct (guess_cm_exp_finite (un_dseq g) (v_rnd e) nm Hnm Hr) as (s & s' & Es & Es' & HV). destruct (HV i _ _ N1 N2) as (th & F1 & F2).
  destruct (guess_cm_values (un_dseq g) (v_rnd e) nm s' i _ _ Es' N1 Hd N2) as (x' & F3 & B). rewrite (F2 Hd) in F3.
  destruct Hm as [E|[E|[]]]; rewrite <- E in *; cbn -[set_initial_guess_cm u_length] in Ez.
  - rewrite Es' in Ez. pose proof (all_fin_inv _ _ _ Ez (u_class g i) N3) as F4. rewrite (F2 Hd), F3 in F4. unfold cm_factor. cbn [String.eqb Ascii.eqb Bool.eqb o_x]. injection F4 as <-. exact B.
  - rewrite Es in Ez. pose proof (all_fin_inv _ _ _ Ez (u_class g i) N3) as F4. rewrite F1 in F4. unfold cm_factor. cbn [String.eqb Ascii.eqb Bool.eqb o_x]. injection F4 as <-. injection F3 as ->. exact B.
Qed.
Lemma start_ecm_named e g t o o' nm : (0 < un_n g)%nat -> In (t_model t) ["ecm"; "ecm_exp"]%string -> nonneg (un_n g) (un_str g) ->
  t_guess t = GStr nm -> In nm weighted_names -> draws (v_rnd e) -> no_step t (u_report e g t o) -> u_tool e g t o = (o', None) ->
  exists x y, us_x o' = Some x /\ us_y o' = Some y /\ forall i, (i < un_n g)%nat -> nth i (un_dseq g) O <> O -> un_str g i <> 0 ->
    weighted_start (volume (un_dseq g) / 2) (rsum (un_n g) (un_str g)) (/ 1000) (v_rnd e i) (v_rnd e (i + un_n g)%nat) nm (INR (nth i (un_dseq g) O)) (un_str g i) (x i) (y i).
Proof.
  intros Hn Hm Hs Hg Hnm Hr HI H. destruct (tool_ecm_state e g t o o' Hn Hm H) as (v & x & y & err & Ev & Ex & Ey & _ & XX & YY & _).
  destruct (u_idle e g t o v ltac:(cbn in Hm |- *; tauto) HI Ev) as (z & Ez & ->). exists x, y. split; [exact Ex|]. split; [exact Ey|]. intros i Hi Hd Hsi.
  assert (Hk : nonneg (un_n g) (at_list (un_dseq g))) by (intros j _; apply pos_INR). assert (Hd' : at_list (un_dseq g) i <> 0) by (apply not_0_INR; exact Hd).
  rewrite XX, YY, Hg in *. unfold u_start in Ez.
  destruct (guess_ecm_exp_start (un_n g) (at_list (un_dseq g)) (un_str g) (v_rnd e) nm Hnm Hk Hs Hr) as (s & s' & th & x' & Es & Es' & F & F' & HV & _).
  destruct (guess_ecm_values (un_n g) (at_list (un_dseq g)) (un_str g) (v_rnd e) nm s' i Hk Hs Es' Hi Hd' Hsi) as (a & b & A1 & B1 & W).
  destruct (HV i Hi) as [V1 V2]. rewrite (F' i ltac:(lia)) in A1. rewrite (F' (i + un_n g)%nat ltac:(lia)) in B1. injection A1 as A1. injection B1 as B1.
  assert (G : forall r, (r < 2 * un_n g)%nat -> o_x {| o_x := z; o_inf := fun _ => false |} r = if String.eqb (t_model t) "ecm" then x' r else th r).
  { intros r Hr'. cbn [o_x]. destruct Hm as [E|[E|[]]]; rewrite <- E in *; cbn -[set_initial_guess_ecm u_length Nat.mul] in Ez |- *.
    - rewrite Es' in Ez. pose proof (all_fin_inv _ _ _ Ez r Hr') as F4. rewrite (F' r Hr') in F4. injection F4 as <-. reflexivity.
    - rewrite Es in Ez. pose proof (all_fin_inv _ _ _ Ez r Hr') as F4. rewrite (F r Hr') in F4. injection F4 as <-. reflexivity. }
  unfold ecm_factor. rewrite !G by lia. rewrite <- A1, <- B1 in W.
  destruct (String.eqb (t_model t) "ecm"); [|rewrite <- (V1 Hd'), <- (V2 Hsi)]; exact W.
Qed.
(** [beta] after a CReMa call, whatever the adjacency. *)
Lemma u_beta_state e g t o o' : In (t_model t) ["crema"; "crema-sparse"]%string -> u_tool e g t o = (o', None) ->
  exists v, solved_of (u_result e g t o) = Some v /\ us_beta o' = Some (o_x v).
Proof.
  intros Hm H. assert (HM : In (c_model (u_call e g t o)) ["crema"; "crema-sparse"]%string) by exact Hm.
  destruct (u_tool_crema _ _ _ _ HM H) as (o1 & H1 & H2). apply u_crema_inv in H1; [|exact HM].
  destruct H1 as (o2 & d & v & v0 & adj & HA & _ & Hv & HJ & ->). destruct (u_error_frame _ _ _ _ H2) as (_ & _ & FB & _). cbn in FB.
  exists v. split; [exact Hv|exact FB].
Qed.
Lemma u_idle_crema e g t o v : In (t_model t) ["crema"; "crema-sparse"]%string -> no_step t (u_report e g t o) -> solved_of (u_result e g t o) = Some v ->
  exists z, u_start g "crema" (v_rnd e) (t_guess t) = Some z /\ v = {| o_x := z; o_inf := fun _ => false |}.
Proof.
  intros Hm HI Hv. assert (EA : among (t_model t) ["crema"; "crema-sparse"]%string = true) by (destruct Hm as [E|[E|[]]]; rewrite <- E; reflexivity).
  unfold u_report, u_result in *. rewrite EA in *. cbv zeta in *. set (o1 := fst (u_set_adjacency g (u_call_adjacency e g t None) o)) in *.
  assert (ES : u_start g (if us_sparse o1 then "crema-sparse"%string else t_model t) (v_rnd e) (t_guess t) = u_start g "crema" (v_rnd e) (t_guess t)).
  { destruct (us_sparse o1); [reflexivity|]. destruct Hm as [E|[E|[]]]; rewrite <- E; reflexivity. }
  unfold u_solver in *. rewrite ES in *. eapply solve_with_idle; [|exact Hv]. exact HI.
Qed.
Lemma rate_values n w rnd s i b nm : nonneg n w -> (i < n)%nat -> w i <> 0 -> set_initial_guess_crema_undirected n w rnd (GStr nm) = inl s -> g_x0 s i = Fin b ->
  rate_start (rsum n w) (rnd i) nm (w i) b.
Proof.
  intros Hs Hi Hsi Es F. destruct (guess_crema_values n w rnd s i Hs Hi Hsi) as (G1 & G2 & G3).
  split; [|split]; intros ->; [specialize (G1 Es)|destruct (G2 Es) as (c & G2a & G2b)|destruct (G3 Es) as (c & G3a & G3b)].
  - rewrite G1 in F. injection F as ->. reflexivity.
  - rewrite G2a in F. injection F as <-. exact G2b.
  - rewrite G3a in F. injection F as <-. exact G3b.
Qed.
Lemma start_crema_named e g t o o' nm : In (t_model t) ["crema"; "crema-sparse"]%string -> nonneg (un_n g) (un_str g) -> t_guess t = GStr nm ->
  no_step t (u_report e g t o) -> u_tool e g t o = (o', None) ->
  exists beta, us_beta o' = Some beta /\ forall i, (i < un_n g)%nat -> un_str g i <> 0 -> rate_start (rsum (un_n g) (un_str g)) (v_rnd e i) nm (un_str g i) (beta i).
Proof.
  intros Hm Hs Hg HI H. destruct (u_beta_state e g t o o' Hm H) as (v & Ev & EB). destruct (u_idle_crema e g t o v Hm HI Ev) as (z & Ez & ->).
  exists z. split; [exact EB|]. intros i Hi Hsi. rewrite Hg in Ez. unfold u_start in Ez. names_in Ez.
  destruct (set_initial_guess_crema_undirected (un_n g) (un_str g) (v_rnd e) (GStr nm)) as [s|] eqn:Es; [|discriminate]. cbn [start_of] in Ez.
  change (u_length g "crema") with (un_n g) in Ez. pose proof (all_fin_inv _ _ _ Ez i Hi) as F.
  exact (rate_values _ _ _ s i _ nm Hs Hi Hsi Es F).
Qed.

(** * DirectedGraph *)
Lemma d_idle e g t o v : In (t_model t) ["dcm"; "dcm_exp"; "decm"; "decm_exp"]%string -> no_step t (d_report e g t o) -> solved_of (d_result e g t o) = Some v ->
  exists z, d_start g (t_model t) (v_rnd e) (t_guess t) = Some z /\ v = {| o_x := z; o_inf := fun _ => false |}.
Proof.
  intros Hm HI Hv. assert (EA : among (t_model t) ["crema"; "crema-sparse"]%string = false) by (destruct Hm as [E|[E|[E|[E|[]]]]]; rewrite <- E; reflexivity).
  unfold d_report, d_result in *. rewrite EA in *. unfold d_solver in *. eapply solve_with_idle; [|exact Hv]. exact HI.
Qed.
Lemma d_node_class g i : d_paired g -> (i < dn_n g)%nat -> nth_error (dn_out g) i = Some (nth i (dn_out g) O) /\ nth_error (dn_in g) i = Some (nth i (dn_in g) O) /\
  nth_error (r_invert_dseq (degree_reduction_dir (dn_out g) (dn_in g))) i = Some (d_class g i) /\ (d_class g i < d_classes_n g)%nat.
Proof.
  intros HL Hi. destruct (reduction_directed (dn_out g) (dn_in g) (eq_sym HL)) as (_ & _ & _ & _ & Hq & _).
  assert (Hi' : (i < List.length (dn_in g))%nat) by (rewrite HL; exact Hi).
  destruct (Hq i _ _ (nth_error_nth' _ O Hi) (nth_error_nth' _ O Hi')) as (q & Q1 & Q2 & Q3).
  split; [apply nth_error_nth'; exact Hi|]. split; [apply nth_error_nth'; exact Hi'|].
  split; [unfold d_class, d_red; rewrite (nth_error_nth _ _ O Q1); exact Q1|]. exact (proj1 (proj1 (d_classes g HL)) i Hi).
Qed.
Lemma start_dcm_named e g t o o' nm : (0 < dn_n g)%nat -> d_paired g -> ds_bo o = None -> In (t_model t) ["dcm"; "dcm_exp"]%string ->
  t_guess t = GStr nm -> In nm binary_names -> draws (v_rnd e) -> balanced (dn_out g) (dn_in g) -> no_step t (d_report e g t o) -> d_tool e g t o = (o', None) ->
  exists x y, ds_x o' = Some x /\ ds_y o' = Some y /\ forall i, (i < dn_n g)%nat ->
    (nth i (dn_out g) O <> O -> exists q, binary_start (volume (dn_out g)) (v_rnd e q) nm (INR (nth i (dn_out g) O)) (x i)) /\
    (nth i (dn_in g) O <> O -> exists q, binary_start (volume (dn_out g)) (v_rnd e q) nm (INR (nth i (dn_in g) O)) (y i)).
Proof.
  intros Hn HL Hb Hm Hg Hnm Hr HB HI H. destruct (tool_dcm_state e g t o o' Hn HL Hb Hm H) as (v & x & y & err & Ev & Ex & Ey & _ & XX & YY & _).
  destruct (d_idle e g t o v ltac:(cbn in Hm |- *; tauto) HI Ev) as (z & Ez & ->). exists x, y. split; [exact Ex|]. split; [exact Ey|]. intros i Hi.
  destruct (d_node_class g i HL Hi) as (N1 & N2 & N3 & N4). rewrite XX, YY, Hg in *. unfold d_start in Ez. cbv zeta in Ez.
  destruct (guess_dcm_exp_inside (dn_out g) (dn_in g) (v_rnd e) nm Hnm Hr (eq_sym HL) HB) as (s & s' & Es & Es' & HV).
  destruct (HV i _ _ _ N1 N2 N3) as (th & ph & F1 & F2 & _ & _ & F3 & F4).
  destruct (guess_dcm_values (dn_out g) (dn_in g) (v_rnd e) nm s' i _ _ _ (eq_sym HL) HB Es' N1 N2 N3) as (B1 & B2).
  fold (d_red g) in F2, F4, B2. fold (d_classes_n g) in F2, F4, B2.
  assert (Ll : (d_class g i < d_length g "dcm" /\ d_class g i + d_classes_n g < d_length g "dcm")%nat) by (change (d_length g "dcm") with (2 * d_classes_n g)%nat; lia).
  destruct Ll as [L1 L2]. unfold dir_factor, drop.
  destruct Hm as [E|[E|[]]]; rewrite <- E in *; cbn -[set_initial_guess_dcm set_initial_guess_dcm_exp d_length] in Ez.
  - rewrite Es' in Ez. pose proof (all_fin_inv _ _ _ Ez _ L1) as G1. pose proof (all_fin_inv _ _ _ Ez _ L2) as G2. split; intros Hd.
    + destruct (B1 Hd) as (a & A1 & A2). rewrite G1 in A1. injection A1 as <-. eexists. exact A2.
    + destruct (B2 Hd) as (a & A1 & A2). rewrite G2 in A1. injection A1 as <-. eexists. exact A2.
  - rewrite Es in Ez. pose proof (all_fin_inv _ _ _ Ez _ L1) as G1. pose proof (all_fin_inv _ _ _ Ez _ L2) as G2. rewrite F1 in G1. rewrite F2 in G2. injection G1 as G1. injection G2 as G2.
    assert (X1 : exp_neg {| o_x := z; o_inf := fun _ => false |} (d_class g i) = exp (- th)) by (unfold exp_neg; cbn [o_x o_inf]; rewrite <- G1; reflexivity).
    assert (X2 : exp_neg {| o_x := z; o_inf := fun _ => false |} (d_class g i + d_classes_n g)%nat = exp (- ph)) by (unfold exp_neg; cbn [o_x o_inf]; rewrite <- G2; reflexivity).
    change (String.eqb "dcm_exp" "dcm") with false. cbv iota. rewrite X1, X2. split; intros Hd.
    + destruct (B1 Hd) as (a & A1 & A2). rewrite (F3 Hd) in A1. injection A1 as <-. eexists. exact A2.
    + destruct (B2 Hd) as (a & A1 & A2). rewrite (F4 Hd) in A1. injection A1 as <-. eexists. exact A2.
Qed.
Lemma start_decm_named e g t o o' nm : In (t_model t) ["decm"; "decm_exp"]%string -> nonneg (dn_n g) (dn_sout g) -> nonneg (dn_n g) (dn_sin g) ->
  t_guess t = GStr nm -> In nm weighted_names -> draws (v_rnd e) -> no_step t (d_report e g t o) -> d_tool e g t o = (o', None) ->
  let u := if String.eqb (t_model t) "decm" then 9 / 10 else / 10 in
  exists x y bo bi, ds_x o' = Some x /\ ds_y o' = Some y /\ ds_bo o' = Some bo /\ ds_bi o' = Some bi /\ forall i, (i < dn_n g)%nat ->
    (nth i (dn_out g) O <> O -> dn_sout g i <> 0 ->
       weighted_start (volume (dn_out g)) (rsum (dn_n g) (dn_sout g)) u (v_rnd e i) (v_rnd e (i + 2 * dn_n g)%nat) nm (INR (nth i (dn_out g) O)) (dn_sout g i) (x i) (bo i)) /\
    (nth i (dn_in g) O <> O -> dn_sin g i <> 0 ->
       weighted_start (volume (dn_out g)) (rsum (dn_n g) (dn_sin g)) u (v_rnd e (i + dn_n g)%nat) (v_rnd e (i + 3 * dn_n g)%nat) nm (INR (nth i (dn_in g) O)) (dn_sin g i) (y i) (bi i)).
Proof.
  intros Hm Hso Hsi Hg Hnm Hr HI H u. destruct (tool_decm_state e g t o o' Hm H) as (v & Ev & Ex & Ey & Eo & Ei).
  destruct (d_idle e g t o v ltac:(cbn in Hm |- *; tauto) HI Ev) as (z & Ez & ->). do 4 eexists. split; [exact Ex|]. split; [exact Ey|]. split; [exact Eo|]. split; [exact Ei|]. intros i Hi.
  assert (Hko : nonneg (dn_n g) (at_list (dn_out g))) by (intros j _; apply pos_INR). assert (Hki : nonneg (dn_n g) (at_list (dn_in g))) by (intros j _; apply pos_INR).
  rewrite Hg in Ez. unfold d_start in Ez. cbv zeta in Ez.
  destruct (guess_decm_inside (dn_n g) (at_list (dn_out g)) (at_list (dn_in g)) (dn_sout g) (dn_sin g) (v_rnd e) nm Hnm Hko Hki Hso Hsi Hr) as (s' & x' & Es' & F' & _).
  destruct (guess_decm_exp_start (dn_n g) (at_list (dn_out g)) (at_list (dn_in g)) (dn_sout g) (dn_sin g) (v_rnd e) nm Hnm Hko Hki Hso Hsi Hr) as (s & th & Es & F & _ & HU & HN & _).
  destruct (guess_decm_values (dn_n g) (at_list (dn_out g)) (at_list (dn_in g)) (dn_sout g) (dn_sin g) (v_rnd e) nm s' i Hko Hki Hso Hsi Es' Hi) as (W1 & W2).
  set (f := dir_factor "decm" (t_model t) {| o_x := z; o_inf := fun _ => false |}).
  assert (K : forall r, (r < 4 * dn_n g)%nat -> decm_constraint (dn_n g) (at_list (dn_out g)) (at_list (dn_in g)) (dn_sout g) (dn_sin g) r <> 0 ->
    (t_model t = "decm"%string -> f r = x' r) /\ (t_model t <> "decm"%string -> (nm = "uniform"%string -> f r = / 10) /\ (nm <> "uniform"%string -> f r = x' r))).
  { intros r Hr' Hc. destruct Hm as [E|[E|[]]]; split; intros Q; try congruence; unfold f, dir_factor; rewrite <- E in *; cbn -[set_initial_guess_decm set_initial_guess_decm_exp d_length Nat.mul] in Ez |- *.
    - rewrite Es' in Ez. pose proof (all_fin_inv _ _ _ Ez r Hr') as F4. rewrite (F' r Hr') in F4. injection F4 as <-. reflexivity.
    - rewrite Es in Ez. pose proof (all_fin_inv _ _ _ Ez r Hr') as F4. rewrite (F r Hr') in F4. injection F4 as F4. unfold exp_neg. cbn [o_x o_inf]. rewrite <- F4.
      split; intros Q'; [apply HU|apply (HN Q' s' x' Es' F')]; assumption. }
  assert (C : forall (a b : nat) (d w : R) links tot ra rb, (a < 4 * dn_n g)%nat -> (b < 4 * dn_n g)%nat ->
     decm_constraint (dn_n g) (at_list (dn_out g)) (at_list (dn_in g)) (dn_sout g) (dn_sin g) a <> 0 ->
     decm_constraint (dn_n g) (at_list (dn_out g)) (at_list (dn_in g)) (dn_sout g) (dn_sin g) b <> 0 ->
     weighted_start links tot (9 / 10) ra rb nm d w (x' a) (x' b) -> weighted_start links tot u ra rb nm d w (f a) (f b)).
  { intros a b d w links tot ra rb La Lb Ca Cb W. destruct (K a La Ca) as [A1 A2]. destruct (K b Lb Cb) as [B1 B2].
    destruct (string_dec (t_model t) "decm") as [E|E].
    - rewrite (A1 E), (B1 E). unfold u. rewrite E. exact W.
    - unfold u. replace (String.eqb (t_model t) "decm") with false by (symmetry; apply String.eqb_neq; exact E).
      destruct (A2 E) as [A3 A4]. destruct (B2 E) as [B3 B4]. destruct W as (W1' & W2' & W3' & W4').
      destruct (string_dec nm "uniform") as [->|NU].
      + split; [intros Q; discriminate|]. split; [intros _; split; [apply A3|apply B3]; reflexivity|]. split; intros Q; discriminate.
      + rewrite (A4 NU), (B4 NU). split; [exact W1'|]. split; [intros Q; contradiction|]. split; assumption. }
  assert (D0 : decm_constraint (dn_n g) (at_list (dn_out g)) (at_list (dn_in g)) (dn_sout g) (dn_sin g) i = at_list (dn_out g) i) by (unfold decm_constraint; destruct (Nat.ltb_spec i (dn_n g)); [reflexivity|lia]).
  unfold drop. split; intros Hd Hs.
  - destruct (W1 ltac:(apply not_0_INR; exact Hd) Hs) as (a & b & A1 & B1 & W). rewrite (F' i ltac:(lia)) in A1. rewrite (F' (i + 2 * dn_n g)%nat ltac:(lia)) in B1. injection A1 as A1. injection B1 as B1. rewrite <- A1, <- B1 in W.
    apply C; [lia|lia| | |exact W].
    + rewrite D0. apply not_0_INR. exact Hd.
    + unfold decm_constraint. destruct (Nat.ltb_spec (i + 2 * dn_n g) (dn_n g)); [lia|]. destruct (Nat.ltb_spec (i + 2 * dn_n g) (2 * dn_n g)); [lia|].
      destruct (Nat.ltb_spec (i + 2 * dn_n g) (3 * dn_n g)); [|lia]. replace (i + 2 * dn_n g - 2 * dn_n g)%nat with i by lia. exact Hs.
  - destruct (W2 ltac:(apply not_0_INR; exact Hd) Hs) as (a & b & A1 & B1 & W). rewrite (F' (i + dn_n g)%nat ltac:(lia)) in A1. rewrite (F' (i + 3 * dn_n g)%nat ltac:(lia)) in B1. injection A1 as A1. injection B1 as B1. rewrite <- A1, <- B1 in W.
    apply C; [lia|lia| | |exact W].
    + unfold decm_constraint. destruct (Nat.ltb_spec (i + dn_n g) (dn_n g)); [lia|]. destruct (Nat.ltb_spec (i + dn_n g) (2 * dn_n g)); [|lia].
      replace (i + dn_n g - dn_n g)%nat with i by lia. apply not_0_INR. exact Hd.
    + unfold decm_constraint. destruct (Nat.ltb_spec (i + 3 * dn_n g) (dn_n g)); [lia|]. destruct (Nat.ltb_spec (i + 3 * dn_n g) (2 * dn_n g)); [lia|].
      destruct (Nat.ltb_spec (i + 3 * dn_n g) (3 * dn_n g)); [lia|]. replace (i + 3 * dn_n g - 3 * dn_n g)%nat with i by lia. exact Hs.
Qed.

Lemma d_beta_state e g t o o' : In (t_model t) ["crema"; "crema-sparse"]%string -> d_tool e g t o = (o', None) ->
  exists v, solved_of (d_result e g t o) = Some v /\ ds_bo o' = Some (o_x v) /\ ds_bi o' = Some (drop (dn_n g) (o_x v)).
Proof.
  intros Hm H. assert (HM : In (c_model (d_call e g t o)) ["crema"; "crema-sparse"]%string) by exact Hm.
  destruct (d_tool_crema _ _ _ _ HM H) as (o1 & H1 & H2). apply d_crema_inv in H1; [|exact HM].
  destruct H1 as (o2 & d & v & v0 & adj & HA & _ & Hv & HJ & ->). destruct (d_error_frame _ _ _ _ H2) as (_ & _ & FO & FI & _).
  exists v. split; [exact Hv|]. rewrite FO, FI. split; reflexivity.
Qed.
Lemma d_idle_crema e g t o v : In (t_model t) ["crema"; "crema-sparse"]%string -> no_step t (d_report e g t o) -> solved_of (d_result e g t o) = Some v ->
  exists z, d_start g "crema" (v_rnd e) (t_guess t) = Some z /\ v = {| o_x := z; o_inf := fun _ => false |}.
Proof.
  intros Hm HI Hv. assert (EA : among (t_model t) ["crema"; "crema-sparse"]%string = true) by (destruct Hm as [E|[E|[]]]; rewrite <- E; reflexivity).
  unfold d_report, d_result in *. rewrite EA in *. cbv zeta in *. set (o1 := fst (d_set_adjacency g (d_call_adjacency e g t None) o)) in *.
  assert (ES : d_start g (if ds_sparse o1 then "crema-sparse"%string else t_model t) (v_rnd e) (t_guess t) = d_start g "crema" (v_rnd e) (t_guess t)).
  { destruct (ds_sparse o1); [reflexivity|]. destruct Hm as [E|[E|[]]]; rewrite <- E; reflexivity. }
  unfold d_solver in *. rewrite ES in *. eapply solve_with_idle; [|exact Hv]. exact HI.
Qed.
Lemma start_crema_dir_named e g t o o' nm : In (t_model t) ["crema"; "crema-sparse"]%string -> nonneg (dn_n g) (dn_sout g) -> nonneg (dn_n g) (dn_sin g) -> t_guess t = GStr nm ->
  no_step t (d_report e g t o) -> d_tool e g t o = (o', None) ->
  exists bo bi, ds_bo o' = Some bo /\ ds_bi o' = Some bi /\ forall i, (i < dn_n g)%nat ->
    (dn_sout g i <> 0 -> rate_start (rsum (dn_n g) (dn_sout g)) (v_rnd e i) nm (dn_sout g i) (bo i)) /\
    (dn_sin g i <> 0 -> rate_start (rsum (dn_n g) (dn_sin g)) (v_rnd e (i + dn_n g)%nat) nm (dn_sin g i) (bi i)).
Proof.
  intros Hm Hso Hsi Hg HI H. destruct (d_beta_state e g t o o' Hm H) as (v & Ev & EO & EI). destruct (d_idle_crema e g t o v Hm HI Ev) as (z & Ez & ->).
  exists z, (drop (dn_n g) z). split; [exact EO|]. split; [exact EI|]. intros i Hi. rewrite Hg in Ez. unfold d_start in Ez. cbv zeta in Ez. names_in Ez.
  destruct (set_initial_guess_crema_directed (dn_n g) (dn_sout g) (dn_sin g) (v_rnd e) (GStr nm)) as [s|] eqn:Es; [|discriminate]. cbn [start_of] in Ez.
  change (d_length g "crema") with (2 * dn_n g)%nat in Ez.
  pose proof (all_fin_inv _ _ _ Ez i ltac:(lia)) as F1. pose proof (all_fin_inv _ _ _ Ez (i + dn_n g)%nat ltac:(lia)) as F2.
  destruct (guess_crema_directed_values (dn_n g) (dn_sout g) (dn_sin g) (v_rnd e) nm s i Hi Es) as (s1 & s2 & E1 & E2 & V1 & V2). rewrite V1 in F1. rewrite V2 in F2.
  split; intros Hs; [exact (rate_values _ _ _ s1 i _ nm Hso Hi Hs E1 F1)|exact (rate_values _ _ (fun i => v_rnd e (i + dn_n g)%nat) s2 i _ nm Hsi Hi Hs E2 F2)].
Qed.
