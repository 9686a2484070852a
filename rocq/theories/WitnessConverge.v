(** Networks meeting the hypotheses of the theorems on fixed-point solves, and networks on
    which a fixed-point solve stops far from the solution. *)
From Coq Require Import Reals List Arith Bool String Lia Lra.
From Verif Require ProofsIEEE.
From Verif Require Import Base SpecGraph SpecDirected SpecDispatch SpecExist SpecGuess SpecTool SpecConverge
  ModelCM ModelDCM ModelNetwork ModelLinsearch ModelSolver ModelDispatch ModelGuess ModelRun ModelSolve ModelTool.
From Verif Require Import ProofsGraph ProofsUnique ProofsSpectral ProofsGuess ProofsSolveU ProofsSolveD ProofsTool ProofsToolD ProofsConvergeTool WitnessTool.
Import ListNotations.
Local Open Scope R_scope.

(** * A path of five nodes and an isolated node *)
Definition path5_net : unet := {| un_dseq := [2; 2; 2; 1; 1; 0]%nat; un_str := fun _ => 0 |}.
Definition path5_law (i j : nat) : R :=
  match i, j with
  | 0, 1 | 0, 2 | 1, 0 | 1, 2 | 2, 0 | 2, 1 => (3 / 4)%R
  | 5, _ | _, 5 => 0%R
  | _, _ => (/ 4)%R
  end%nat.
Ltac five5 i := destruct i as [|[|[|[|[|i]]]]]; [| | | | |exfalso; lia].
Ltac six i Hi := destruct i as [|[|[|[|[|[|i]]]]]]; [| | | | | |exfalso; lia].
Lemma path5_case : (0 < un_n path5_net)%nat /\ inner_und (un_n path5_net) (at_list (un_dseq path5_net)) path5_law /\
  (exists i, (i < un_n path5_net)%nat /\ nth i (un_dseq path5_net) O <> O) /\ (exists e, draws (v_rnd e)).
Proof.
  change (un_n path5_net) with 6%nat. split; [lia|]. split; [|split].
  - split; [split; [|split]|].
    + intros i j Hi Hj N A B. unfold at_list in A, B. six i Hi; six j Hj; cbn in A, B |- *; try lra; exfalso; congruence.
    + intros i j Hi Hj N A. unfold at_list in A. six i Hi; six j Hj; cbn in A |- *; try lra; destruct A; lra.
    + intros i Hi. unfold row, col, at_list. six i Hi; cbn; split; lra.
    + intros i j Hi Hj. six i Hi; six j Hj; reflexivity.
  - exists O. split; [lia|]. cbn. lia.
  - exists {| v_linsolve := fun _ _ => None; v_eigh_ok := fun _ => true; v_eigh := fun _ => (fun _ => 0, fun _ _ => 0); v_fuel := 100; v_rnd := half; v_rnd_adjacency := half |}.
    exact half_draws.
Qed.
(** ... without the isolated node, from the degrees. *)
Definition path5_only : unet := {| un_dseq := [2; 2; 2; 1; 1]%nat; un_str := fun _ => 0 |}.
Lemma path5_only_case : (0 < un_n path5_only)%nat /\ inner_und (un_n path5_only) (at_list (un_dseq path5_only)) path5_law /\
  (forall i, (i < un_n path5_only)%nat -> nth i (un_dseq path5_only) O <> O) /\ (exists x0, u_start path5_only "cm_exp" half (GStr "degrees") = Some x0).
Proof.
  change (un_n path5_only) with 5%nat. split; [lia|]. split; [|split].
  - split; [split; [|split]|].
    + intros i j Hi Hj N A B. unfold at_list in A, B. five5 i; five5 j; cbn; try lra; exfalso; congruence.
    + intros i j Hi Hj N A. unfold at_list in A. five5 i; five5 j; cbn in A |- *; destruct A; lra.
    + intros i Hi. unfold row, col, at_list. destruct i as [|[|[|[|[|i]]]]]; [| | | | |exfalso; lia]; cbn; split; lra.
    + intros i j Hi Hj. five5 i; five5 j; reflexivity.
  - intros i Hi. destruct i as [|[|[|[|[|i]]]]]; [| | | | |exfalso; lia]; cbn; lia.
  - unfold u_start, start_of. names. unfold set_initial_guess_cm. cbn -[where_zero neglog_nonzero all_fin u_length np_unique].
    apply all_fin_some'. intros i Hi. apply neglog_fin. unfold where_zero. destruct (Req_EM_T _ 0) as [Z|Z]; eexists; (split; [reflexivity|]); [left; reflexivity|].
    right. destruct (Rle_lt_or_eq_dec 0 (INR (nth i (np_unique Nat.leb Nat.eqb [2; 2; 2; 1; 1]%nat) O)) (pos_INR _)) as [L|L]; [exact L|]. exfalso. apply Z. symmetry. exact L.
Qed.

(** * Three nodes linked in both directions, and two senders *)
Definition senders_net : dnet := {| dn_out := [1; 1; 1; 1; 2]%nat; dn_in := [2; 2; 2; 0; 0]%nat; dn_sout := fun _ => 0; dn_sin := fun _ => 0 |}.
Definition senders_law (i j : nat) : R :=
  match i, j with
  | _, 3 | _, 4 => 0%R
  | 3, _ => (/ 3)%R | 4, _ => (2 / 3)%R
  | _, _ => (/ 2)%R
  end%nat.
Lemma senders_case : (0 < dn_n senders_net)%nat /\ d_paired senders_net /\ balanced (dn_out senders_net) (dn_in senders_net) /\
  inner_dir (dn_n senders_net) (at_list (dn_out senders_net)) (at_list (dn_in senders_net)) senders_law /\
  (exists i, (i < dn_n senders_net)%nat /\ nth i (dn_out senders_net) O <> O) /\ (exists i, (i < dn_n senders_net)%nat /\ nth i (dn_in senders_net) O <> O) /\
  (exists e, draws (v_rnd e)).
Proof.
  change (dn_n senders_net) with 5%nat. split; [lia|]. split; [reflexivity|]. split; [unfold balanced; cbn; lra|]. split; [|split; [|split]].
  - split; [|split].
    + intros i j Hi Hj N A B. unfold at_list in A, B. five5 i; five5 j; cbn in A, B |- *; try lra; exfalso; congruence.
    + intros i j Hi Hj N A. unfold at_list in A. five5 i; five5 j; cbn in A |- *; try lra; destruct A; lra.
    + intros i Hi. unfold row, col, at_list. five5 i; cbn; split; lra.
  - exists O. split; [lia|]. cbn. lia.
  - exists O. split; [lia|]. cbn. lia.
  - apply path5_case.
Qed.
Definition both_net : dnet := {| dn_out := [2; 2; 2; 1; 1]%nat; dn_in := [2; 2; 2; 1; 1]%nat; dn_sout := fun _ => 0; dn_sin := fun _ => 0 |}.
Lemma both_case : (0 < dn_n both_net)%nat /\ d_paired both_net /\
  inner_dir (dn_n both_net) (at_list (dn_out both_net)) (at_list (dn_in both_net)) path5_law /\
  (forall i, (i < dn_n both_net)%nat -> nth i (dn_out both_net) O <> O /\ nth i (dn_in both_net) O <> O) /\
  (exists x0, d_start both_net "dcm_exp" half (GStr "degrees") = Some x0).
Proof.
  split; [cbn; lia|]. split; [reflexivity|]. split; [apply path5_only_case|]. split; [intros i Hi; split; apply path5_only_case; exact Hi|].
  unfold d_start, start_of. names. unfold set_initial_guess_dcm_exp, dcm_values. unfold binary_named. names. cbn [gbind fst snd].
  set (r := degree_reduction_dir _ _). apply all_fin_some'. intros i Hi. cbn [g_x0].
  assert (P : forall l j, exists t, where_zero (fun i => INR (nth i l O)) 1000 (neglog_nonzero (fun i => Fin (INR (nth i l O)))) j = Fin t).
  { intros l j. unfold where_zero. destruct (Req_EM_T _ 0) as [Z|Z]; [eexists; reflexivity|]. apply neglog_fin. eexists. split; [reflexivity|]. right.
    destruct (Rle_lt_or_eq_dec 0 _ (pos_INR (nth j l O))) as [L|L]; [exact L|]. exfalso. apply Z. symmetry. exact L. }
  unfold cat2. destruct (Nat.ltb i (rnz_n_out r)); apply P.
Qed.

(** The same networks, as classes: three of sizes 1, 2, 3 (degrees 0, 1, 2); two; three. *)
Lemma path5_classes : exists c k xs x0, class_degrees 3 c k /\ nonempty 3 k /\ cm_solution 3 c k xs /\ cm_full 3 k x0.
Proof.
  exists (at_list (np_counts Nat.leb Nat.eqb (un_dseq path5_net))), (at_list (np_unique Nat.leb Nat.eqb (un_dseq path5_net))).
  destruct path5_case as (_ & P & N & _). destruct (u_solution path5_net path5_law P) as (xs & S).
  destruct (start_cm_full path5_net half "degrees" ltac:(cbn; tauto) half_draws) as (x0 & _ & F). exists xs, x0.
  split; [exact (u_class_degrees path5_net)|]. split; [exact (u_nonempty path5_net N)|]. split; [exact S|exact F].
Qed.
Lemma path5_only_classes : exists c k ths, (forall i, (i < 2)%nat -> 1 <= c i /\ 1 <= k i) /\ cm_solution 2 c k (expn ths).
Proof.
  exists (at_list (np_counts Nat.leb Nat.eqb (un_dseq path5_only))), (at_list (np_unique Nat.leb Nat.eqb (un_dseq path5_only))).
  destruct path5_only_case as (_ & P & _). destruct (u_solution path5_only path5_law P) as (xs & F & S). exists (fun q => - ln (xs q)).
  assert (K : forall i, (i < 2)%nat -> 1 <= at_list (np_counts Nat.leb Nat.eqb (un_dseq path5_only)) i /\ 1 <= at_list (np_unique Nat.leb Nat.eqb (un_dseq path5_only)) i).
  { intros i Hi. unfold at_list. destruct i as [|[|i]]; [| |lia]; cbn; split; lra. }
  split; [exact K|]. assert (E : forall q, (q < 2)%nat -> expn (fun q => - ln (xs q)) q = xs q).
  { intros q Hq. unfold expn. rewrite Ropp_involutive, exp_ln; [reflexivity|]. apply F; [exact Hq|]. destruct (K q Hq). lra. }
  split.
  - intros q Hq. rewrite E by exact Hq. apply F. exact Hq.
  - intros q Hq. pose proof (S q Hq) as Sq. unfold class_mean, p_ubcm in *. change (List.length (np_unique Nat.leb Nat.eqb (un_dseq path5_only))) with 2%nat in Sq. rewrite <- Sq.
    apply rsum_ext. intros j Hj. rewrite !E by assumption. reflexivity.
Qed.
Lemma senders_classes : exists c ko ki xs x0, class_degrees 3 c ko /\ class_degrees 3 c ki /\ nonempty 3 ko /\ nonempty 3 ki /\ dcm_solution 3 c ko ki xs /\
  cm_full 3 ko x0 /\ cm_full 3 ki (shift 3 x0).
Proof.
  exists (at_list (r_multiplicity (d_red senders_net))), (at_list (rnz_dseq_out (d_red senders_net))), (at_list (rnz_dseq_in (d_red senders_net))).
  destruct senders_case as (_ & L & B & P & N1 & N2 & _). destruct (d_solution senders_net L senders_law P) as (xs & S).
  destruct (start_dcm_full senders_net L half "degrees" ltac:(cbn; tauto) half_draws B) as (x0 & _ & F & G). exists xs, x0.
  split; [exact (d_degrees_out senders_net L)|]. split; [exact (d_degrees_in senders_net L)|]. split; [exact (d_nonempty_out senders_net L N1)|].
  split; [exact (d_nonempty_in senders_net L N2)|]. split; [exact S|]. split; [exact F|exact G].
Qed.
Lemma both_classes : exists c ko ki ths, (forall i, (i < 2)%nat -> 1 <= c i /\ 1 <= ko i /\ 1 <= ki i) /\ dcm_solution 2 c ko ki (expn ths).
Proof.
  exists (at_list (r_multiplicity (d_red both_net))), (at_list (rnz_dseq_out (d_red both_net))), (at_list (rnz_dseq_in (d_red both_net))).
  destruct both_case as (_ & L & P & _). destruct (d_solution both_net L path5_law P) as (xs & F & G & S). exists (fun q => - ln (xs q)).
  assert (K : forall i, (i < 2)%nat -> 1 <= at_list (r_multiplicity (d_red both_net)) i /\ 1 <= at_list (rnz_dseq_out (d_red both_net)) i /\ 1 <= at_list (rnz_dseq_in (d_red both_net)) i).
  { intros i Hi. unfold at_list. destruct i as [|[|i]]; [| |lia]; cbn; repeat split; lra. }
  split; [exact K|]. change (d_classes_n both_net) with 2%nat in *. assert (E : forall q, (q < 2)%nat -> expn (fun q => - ln (xs q)) q = xs q).
  { intros q Hq. unfold expn. rewrite Ropp_involutive, exp_ln; [reflexivity|]. apply F; [exact Hq|]. destruct (K q Hq) as (? & ? & ?). lra. }
  assert (E' : forall q, (q < 2)%nat -> shift 2 (expn (fun q => - ln (xs q))) q = shift 2 xs q).
  { intros q Hq. unfold expn, shift. rewrite Ropp_involutive, exp_ln; [reflexivity|]. apply G; [exact Hq|]. destruct (K q Hq) as (? & ? & ?). lra. }
  split; [|split].
  - intros q Hq. rewrite E by exact Hq. apply F. exact Hq.
  - intros q Hq. rewrite E' by exact Hq. apply G. exact Hq.
  - intros q Hq. destruct (S q Hq) as [<- <-]. unfold class_mean. split; apply rsum_ext; intros j Hj; unfold p_dbcm; rewrite E, E' by assumption; reflexivity.
Qed.

(** * A ring of six nodes *)
Definition ring6 (i j : nat) : bool :=
  match i, j with
  | 0, 1 | 1, 0 | 1, 2 | 2, 1 | 2, 3 | 3, 2 | 3, 4 | 4, 3 | 4, 5 | 5, 4 | 5, 0 | 0, 5 => true | _, _ => false end%nat.
Definition ring6_net : unet := {| un_dseq := [2; 2; 2; 2; 2; 2]%nat; un_str := fun _ => 0 |}.
Lemma ring6_degrees : simple_graph 6 ring6 /\ (forall i, (i < 6)%nat -> at_list (un_dseq ring6_net) i = deg 6 ring6 i).
Proof.
  split; [split|].
  - intros i j Hi Hj. six i Hi; six j Hj; reflexivity.
  - intros i Hi. six i Hi; reflexivity.
  - intros i Hi. unfold at_list, deg. six i Hi; cbn; lra.
Qed.
Lemma ring6_inner : inner_und 6 (at_list (un_dseq ring6_net)) (fun _ _ => 2 / 5).
Proof.
  assert (D : forall i, (i < 6)%nat -> at_list (un_dseq ring6_net) i = 2) by (intros i Hi; unfold at_list; six i Hi; cbn; lra).
  split; [split; [|split]|].
  - intros; lra.
  - intros i j Hi Hj _ [H|H]; rewrite D in H by assumption; lra.
  - intros i Hi. rewrite D by exact Hi. unfold row, col. six i Hi; cbn; split; lra.
  - reflexivity.
Qed.
Lemma exp_half : exp (- - ln (/ 2)) = / 2.
Proof. rewrite Ropp_involutive. apply exp_ln. lra. Qed.
Lemma neglog_at v i x : 0 < x -> v i = Fin x -> neglog_nonzero v i = Fin (- ln x).
Proof.
  intros H E. unfold neglog_nonzero. rewrite E. destruct (Req_EM_T x 0) as [Z|_]; [lra|]. unfold fneglog. destruct (Rlt_dec 0 x) as [_|N]; [reflexivity|lra].
Qed.
Lemma all_fin_at m v x : (forall i, (i < m)%nat -> v i = Fin (x i)) -> exists f, all_fin m v = Some f /\ forall i, (i < m)%nat -> f i = x i.
Proof.
  intros H. destruct (all_fin_some m v x H) as (f & E). exists f. split; [exact E|]. intros i Hi.
  pose proof (all_fin_inv m v f E i Hi) as F. rewrite H in F by exact Hi. congruence.
Qed.
Lemma ring6_start e : exists x0, u_start ring6_net "cm_exp" (v_rnd e) (GStr "uniform") = Some x0 /\ x0 O = - ln (/ 2).
Proof.
  unfold u_start, start_of. names. unfold set_initial_guess_cm. cbn -[where_zero neglog_nonzero all_fin u_length np_unique].
  change (u_length ring6_net "cm_exp") with 1%nat.
  match goal with |- exists x0, all_fin 1 ?v = _ /\ _ => destruct (all_fin_at 1 v (fun _ => - ln (/ 2))) as (f & E & F) end.
  - intros i Hi. replace i with O by lia. apply neglog_at; [lra|]. unfold where_zero. destruct (Req_EM_T _ 0) as [Z|Z]; [|reflexivity].
    exfalso. cbn in Z. lra.
  - exists f. split; [exact E|]. apply F. lia.
Qed.
Lemma ring6_stops e t o : t_model t = "cm_exp"%string -> t_method t = "fixed-point"%string -> t_guess t = GStr "uniform" -> t_full t = true -> 0 <= t_tol t ->
  us_beta o = None -> exists o' rep, u_tool e ring6_net t o = (o', None) /\ u_report e ring6_net t o = Some rep /\
    r_steps rep = O /\ tolerance_reached 0 rep /\ us_err o' = Some 1.
Proof.
  intros H1 H2 H3 H4 H5 Ho. destruct (ring6_start e) as (x0 & E0 & F0).
  assert (HD : exists D, u_dispatch "cm_exp" "fixed-point" None = inl D /\ d_fun D = Pos "iterative_cm_exp") by (eexists; split; reflexivity).
  destruct HD as (D & HD & HF).
  assert (HV : exists f, real_vec 1 (run_entry (d_fun D) (u_args_cm ring6_net) x0) = Some f /\ f O = 0).
  { rewrite HF. destruct (all_fin_at 1 (ModelIEEE.fiterative_cm_exp 1 (at_list [2%nat]) (at_list [6%nat]) x0) (fun _ => 0)) as (f & E & F).
    - intros i Hi. replace i with O by lia. rewrite ProofsIEEE.fcm_exp_map_fin; [|unfold at_list; cbn; lra|intros j Hj; replace j with O by lia; unfold at_list; cbn; lra].
      f_equal. unfold iterative_cm_exp. cbv zeta. rewrite loop_S, loop_0. cbn [Nat.eqb]. rewrite F0, exp_half.
      replace (at_list [2%nat] 0) with 2 by (unfold at_list; cbn; lra). replace (at_list [6%nat] 0) with 6 by (unfold at_list; cbn; lra).
      replace (0 + (6 - 1) * (/ 2 / (1 + / 2 * / 2))) with 2 by field. destruct (Req_EM_T 2 0) as [Z|_]; [lra|].
      replace (2 / 2) with 1 by field. rewrite ln_1. lra.
    - exists f. split; [exact E|]. apply F. lia. }
  destruct HV as (f & HV & Ff).
  assert (EN : norm2 1 f = 0). { unfold norm2, dot. cbn [rsum]. rewrite Ff. rewrite Rmult_0_l, Rplus_0_l. apply sqrt_0. }
  assert (R0 : solver (run_numerics (v_linsolve e) (v_eigh_ok e) 1) (run_problem (v_eigh e) (v_fuel e) 1 D (u_args_cm ring6_net)) (t_options t "fixed-point" (t_linsearch t)) x0 =
    Full x0 0 [norm2 1 f] [1] []).
  { refine (stop_at_start e (t_options t "fixed-point" (t_linsearch t)) 1 (inl D) (Some (u_args_cm ring6_net)) (Some x0) D _ x0 f H4 eq_refl eq_refl eq_refl HV _).
    rewrite EN. exact H5. }
  assert (E0' : u_start ring6_net "cm_exp" (v_rnd e) (t_guess t) = Some x0) by (rewrite H3; exact E0).
  assert (Hn : (0 < un_n ring6_net)%nat) by (cbn; lia).
  destruct (u_call_from ring6_net e t o "cm_exp" D x0 (or_intror (or_introl eq_refl)) H1 H2 Ho Hn HD E0' _ _ _ _ _ R0) as (o' & z & err & E1 & E2 & _ & E3 & _ & i & Hi & Ei).
  exists o'. eexists. split; [exact E1|]. split; [exact E2|]. split; [reflexivity|]. split.
  - exists [], (norm2 1 f). split; [reflexivity|]. rewrite EN. apply Rle_refl.
  - rewrite E3, Ei. f_equal. change (String.eqb "cm_exp" "cm") with false. cbv iota.
    pose proof (u_class_lt ring6_net i Hi) as L. change (List.length (np_unique Nat.leb Nat.eqb (un_dseq ring6_net))) with 1%nat in *. replace (u_class ring6_net i) with O by lia.
    unfold class_mean. cbn [rsum Nat.eqb]. unfold p_ubcm, expn. rewrite F0, exp_half.
    change (np_unique Nat.leb Nat.eqb (un_dseq ring6_net)) with [2%nat]. change (np_counts Nat.leb Nat.eqb (un_dseq ring6_net)) with [6%nat].
    replace (at_list [2%nat] 0) with 2 by (unfold at_list; cbn; lra). replace (at_list [6%nat] 0) with 6 by (unfold at_list; cbn; lra).
    match goal with |- Rabs ?a = _ => replace a with (-1) by field end. rewrite Rabs_left by lra. lra.
Qed.
Lemma cm_exp_tolerance_refuted : exists g p, inner_und (un_n g) (at_list (un_dseq g)) p /\
  (exists a, simple_graph (un_n g) a /\ forall i, (i < un_n g)%nat -> at_list (un_dseq g) i = deg (un_n g) a i) /\
  forall e ls t o, fixed_point_call "cm_exp" (GStr "uniform") ls t -> 0 <= t_tol t -> us_beta o = None ->
    exists o' rep, u_tool e g t o = (o', None) /\ u_report e g t o = Some rep /\ r_steps rep = O /\ tolerance_reached 0 rep /\ us_err o' = Some 1.
Proof.
  exists ring6_net, (fun _ _ => 2 / 5). split; [exact ring6_inner|]. split; [exists ring6; exact ring6_degrees|].
  intros e ls t o (H1 & H2 & H3 & _ & H5) Ht Ho. exact (ring6_stops e t o H1 H2 H3 H5 Ht Ho).
Qed.

(** The same ring, linked in both directions. *)
Definition ring6_dir : dnet := {| dn_out := [2; 2; 2; 2; 2; 2]%nat; dn_in := [2; 2; 2; 2; 2; 2]%nat; dn_sout := fun _ => 0; dn_sin := fun _ => 0 |}.
Lemma ring6_dir_start e : exists x0, d_start ring6_dir "dcm_exp" (v_rnd e) (GStr "uniform") = Some x0 /\ forall i, (i < 2)%nat -> x0 i = - ln (/ 2).
Proof.
  unfold d_start, start_of. names. unfold set_initial_guess_dcm_exp, dcm_values. unfold binary_named. names. cbn [gbind fst snd g_x0].
  change (d_length ring6_dir "dcm_exp") with 2%nat.
  match goal with |- exists x0, all_fin 2 ?v = _ /\ _ => destruct (all_fin_at 2 v (fun _ => - ln (/ 2))) as (f & E & F) end.
  - intros i Hi. change (degree_reduction_dir (dn_out ring6_dir) (dn_in ring6_dir)) with (d_red ring6_dir).
    change (rnz_n_out (d_red ring6_dir)) with 1%nat. change (rnz_dseq_out (d_red ring6_dir)) with [2%nat]. change (rnz_dseq_in (d_red ring6_dir)) with [2%nat].
    unfold cat2. destruct i as [|[|i]]; [| |lia]; cbn [Nat.ltb Nat.leb Nat.sub]; unfold where_zero; (destruct (Req_EM_T _ 0) as [Z|Z]; [exfalso; cbn in Z; lra|]); apply neglog_at; try reflexivity; lra.
  - exists f. split; [exact E|exact F].
Qed.
Lemma ring6_dir_stops e t o : t_model t = "dcm_exp"%string -> t_method t = "fixed-point"%string -> t_guess t = GStr "uniform" -> t_full t = true -> 0 <= t_tol t ->
  ds_bo o = None -> exists o' rep, d_tool e ring6_dir t o = (o', None) /\ d_report e ring6_dir t o = Some rep /\
    r_steps rep = O /\ tolerance_reached 0 rep /\ ds_err o' = Some 1.
Proof.
  intros H1 H2 H3 H4 H5 Ho. destruct (ring6_dir_start e) as (x0 & E0 & F0).
  assert (HD : exists D, d_dispatch "dcm_exp" "fixed-point" None = inl D /\ d_fun D = Pos "iterative_dcm_exp") by (eexists; split; reflexivity).
  destruct HD as (D & HD & HF). pose proof (F0 0%nat ltac:(lia)) as F00. pose proof (F0 1%nat ltac:(lia)) as F01.
  assert (V2 : at_list [2%nat] 0 = 2) by (unfold at_list; cbn; lra). assert (V6 : at_list [6%nat] 0 = 6) by (unfold at_list; cbn; lra).
  assert (HV : exists f, real_vec 2 (run_entry (d_fun D) (d_args_dcm ring6_dir) x0) = Some f /\ f O = 0 /\ f 1%nat = 0).
  { rewrite HF. destruct (all_fin_at 2 (fun i => iterative_dcm_exp 1 (at_list [2%nat]) (at_list [2%nat]) (at_list [6%nat]) (fun r => Some (x0 r)) i) (fun _ => 0)) as (f & E & F).
    - intros i Hi. unfold iterative_dcm_exp, dcm_f_out, dcm_f_in, expneg, fneglog, fdiv. cbv zeta.
      destruct i as [|[|i]]; [| |lia]; cbn [Nat.ltb Nat.leb Nat.sub]; rewrite ?loop_S, ?loop_0; cbn [Nat.eqb negb Nat.add]; rewrite ?F00, ?F01, ?exp_half, ?V2, ?V6;
      [replace (0 + (6 - 1) * / 2 / (1 + / 2 * / 2)) with 2 by field|replace (0 + (6 - 1) * / 2 / (1 + / 2 * / 2)) with 2 by field];
      (destruct (Req_EM_T 2 0) as [Z|_]; [lra|]); replace (2 / 2) with 1 by field; (destruct (Rlt_dec 0 1) as [_|N]; [|lra]); rewrite ln_1, Ropp_0; reflexivity.
    - exists f. split; [exact E|]. split; apply F; lia. }
  destruct HV as (f & HV & Ff & Fg).
  assert (EN : norm2 2 f = 0). { unfold norm2, dot. cbn [rsum]. rewrite Ff, Fg. rewrite Rmult_0_l, !Rplus_0_l. apply sqrt_0. }
  assert (R0 : solver (run_numerics (v_linsolve e) (v_eigh_ok e) 2) (run_problem (v_eigh e) (v_fuel e) 2 D (d_args_dcm ring6_dir)) (t_options t "fixed-point" (t_linsearch t)) x0 =
    Full x0 0 [norm2 2 f] [1] []).
  { refine (stop_at_start e (t_options t "fixed-point" (t_linsearch t)) 2 (inl D) (Some (d_args_dcm ring6_dir)) (Some x0) D _ x0 f H4 eq_refl eq_refl eq_refl HV _).
    rewrite EN. exact H5. }
  assert (E0' : d_start ring6_dir "dcm_exp" (v_rnd e) (t_guess t) = Some x0) by (rewrite H3; exact E0).
  assert (Hn : (0 < dn_n ring6_dir)%nat) by (cbn; lia).
  destruct (d_call_from ring6_dir eq_refl e t o "dcm_exp" D x0 (or_intror (or_introl eq_refl)) H1 H2 Ho Hn HD E0' _ _ _ _ _ R0) as (o' & err & E1 & E2 & E3 & i & Hi & Ei).
  exists o'. eexists. split; [exact E1|]. split; [exact E2|]. split; [reflexivity|]. split.
  - exists [], (norm2 2 f). split; [reflexivity|]. rewrite EN. apply Rle_refl.
  - rewrite E3. f_equal. change (String.eqb "dcm_exp" "dcm") with false in Ei. cbv iota in Ei.
    pose proof (d_class_lt ring6_dir eq_refl i Hi) as L. change (d_classes_n ring6_dir) with 1%nat in *. replace (d_class ring6_dir i) with O in Ei by lia.
    change (rnz_dseq_out (d_red ring6_dir)) with [2%nat] in Ei. change (rnz_dseq_in (d_red ring6_dir)) with [2%nat] in Ei. change (r_multiplicity (d_red ring6_dir)) with [6%nat] in Ei.
    unfold class_mean in Ei. cbn [rsum Nat.eqb] in Ei. unfold p_dbcm, shift, expn in Ei. cbn [Nat.add] in Ei. rewrite F00, F01, exp_half, V2, V6 in Ei.
    replace (0 + (6 - 1) * (/ 2 * / 2 / (1 + / 2 * / 2)) - 2) with (-1) in Ei by field. rewrite Rabs_left in Ei by lra. destruct Ei as [->| ->]; lra.
Qed.
Lemma dcm_exp_tolerance_refuted : exists g p, d_paired g /\ inner_dir (dn_n g) (at_list (dn_out g)) (at_list (dn_in g)) p /\
  (exists a, loopless (dn_n g) a /\ forall i, (i < dn_n g)%nat -> at_list (dn_out g) i = deg (dn_n g) a i /\ at_list (dn_in g) i = indeg (dn_n g) a i) /\
  forall e ls t o, fixed_point_call "dcm_exp" (GStr "uniform") ls t -> 0 <= t_tol t -> ds_bo o = None ->
    exists o' rep, d_tool e g t o = (o', None) /\ d_report e g t o = Some rep /\ r_steps rep = O /\ tolerance_reached 0 rep /\ ds_err o' = Some 1.
Proof.
  exists ring6_dir, (fun _ _ => 2 / 5). split; [reflexivity|]. split; [apply ring6_inner|]. split.
  - exists ring6. split; [intros i Hi; apply ring6_degrees; exact Hi|]. intros i Hi. split; [apply ring6_degrees; exact Hi|].
    change (at_list (dn_in ring6_dir) i) with (at_list (un_dseq ring6_net) i). unfold at_list, indeg. change (dn_n ring6_dir) with 6%nat in *. six i Hi; cbn; lra.
  - intros e ls t o (H1 & H2 & H3 & _ & H5) Ht Ho. exact (ring6_dir_stops e t o H1 H2 H3 H5 Ht Ho).
Qed.
