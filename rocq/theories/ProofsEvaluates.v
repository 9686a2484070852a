(** Where the named starting points leave the functions of the models: the gradient of [cm]
    and of [ecm] divides by each entry of the start, which is zero for an isolated node. *)
From Coq Require Import Reals List Arith Bool String Lia Lra.
From Verif Require Import Base SpecDeriv SpecGraph SpecEnsemble SpecWeighted SpecDirected SpecCReMa SpecNetwork SpecLinsearch SpecDispatch SpecRun SpecSolver SpecSolve SpecGuess SpecTool SpecStart
  ModelCM ModelECM ModelDCM ModelDECM ModelCReMa ModelNetwork ModelLinsearch ModelSolver ModelIEEE ModelDispatch ModelGuess ModelRun ModelSolve ModelTool.
From Verif Require Import ProofsGraph ProofsUnique ProofsCM ProofsMainCM ProofsECM ProofsMainECM ProofsCReMa ProofsMainCReMa ProofsAdjacency ProofsSolver ProofsConverged ProofsGuess ProofsGuessW ProofsIEEE ProofsGuarded ProofsDispatch ProofsRun ProofsSolve ProofsSolveU ProofsSolveD ProofsTool ProofsToolD ProofsStart.
Import ListNotations.
Local Open Scope R_scope.

Definition u_evaluates (g : unet) (m : string) (z : nat -> R) : Prop := forall meth D A, In meth descent_methods ->
  u_dispatch m meth None = inl D -> u_args g m None = Some A -> exists f, real_vec (u_length g m) (run_entry (d_fun D) A z) = Some f.
Definition d_evaluates (g : dnet) (m : string) (z : nat -> R) : Prop := forall meth D A, In meth descent_methods ->
  d_dispatch m meth None = inl D -> d_args g m None = Some A -> exists f, real_vec (d_length g m) (run_entry (d_fun D) A z) = Some f.

(** * UndirectedGraph *)
Lemma start_cm_entries g rnd nm z i : In nm binary_names -> draws rnd -> u_start g "cm" rnd (GStr nm) = Some z ->
  (i < un_n g)%nat -> (nth i (un_dseq g) O <> O -> 0 < z (u_class g i)) /\ (nth i (un_dseq g) O = O -> z (u_class g i) = 0).
Proof.
  intros Hn Hr H Hi. unfold u_start in H. names_in H. destruct (guess_cm_inside (un_dseq g) rnd nm Hn Hr) as (o & E & F).
  change (String.eqb "cm" "cm_exp") with false in H. rewrite E in H. cbn [start_of] in H.
  destruct (u_class_error g i Hi) as (Q1 & Q2 & L). destruct (F i (nth i (un_dseq g) O) (u_class g i)) as (x & X1 & X2); [exact Q1|exact Q2|].
  pose proof (all_fin_inv _ _ _ H (u_class g i) L) as Ez. rewrite X1 in Ez. injection Ez as <-. destruct X2 as [P Z].
  split; intros Hd; [apply P; rewrite INR_zero_iff; exact Hd|apply Z; rewrite Hd; reflexivity].
Qed.
Lemma start_cm_evaluates g rnd nm z : In nm binary_names -> draws rnd -> u_start g "cm" rnd (GStr nm) = Some z ->
  u_evaluates g "cm" z <-> (forall i, (i < un_n g)%nat -> nth i (un_dseq g) O <> O).
Proof.
  intros Hn Hr Hz.
  assert (HE : forall q, (q < List.length (np_unique Nat.leb Nat.eqb (un_dseq g)))%nat -> exists i, (i < un_n g)%nat /\ u_class g i = q).
  { intros q Hq. destruct (u_class_rep g q Hq) as (i & Hi & _ & Q). exists i. split; [exact Hi|]. unfold u_class. rewrite (nth_error_nth _ _ O Q). reflexivity. }
  split.
  - intros EV i Hi Z. destruct (EV "newton"%string _ _ ltac:(cbn; tauto) eq_refl eq_refl) as (f & Hf).
    rewrite (fun_cm "newton" _ _ _ _ _ ltac:(cbn; tauto) eq_refl) in Hf. destruct (cm_divisors _ z) eqn:G; [|discriminate].
    unfold cm_divisors in G. apply andb_prop in G as [G _]. unfold every in G. rewrite forallb_forall in G.
    destruct (u_class_error g i Hi) as (_ & _ & L). specialize (G (u_class g i) ltac:(apply in_seq; split; [lia|exact L])).
    rewrite (proj2 (start_cm_entries g rnd nm z i Hn Hr Hz Hi) Z) in G. unfold nonzero in G. destruct (Req_EM_T 0 0); [discriminate|contradiction].
  - intros HP meth D A Hme HD HA. injection HA as <-. rewrite (fun_cm meth D _ _ _ z Hme HD). rewrite cm_divisors_ok; [eexists; reflexivity|].
    intros q Hq. destruct (HE q Hq) as (i & Hi & <-). apply (start_cm_entries g rnd nm z i Hn Hr Hz Hi). apply HP, Hi.
Qed.
Lemma cm_exp_evaluates g z : u_evaluates g "cm_exp" z.
Proof. intros meth D A Hme HD HA. injection HA as <-. rewrite (fun_cm_exp meth D _ _ _ z Hme HD). eexists. reflexivity. Qed.
Lemma start_ecm_evaluates g rnd nm z : In nm weighted_names -> draws rnd -> nonneg (un_n g) (un_str g) -> u_start g "ecm" rnd (GStr nm) = Some z ->
  u_evaluates g "ecm" z <-> (forall i, (i < un_n g)%nat -> nth i (un_dseq g) O <> O /\ un_str g i <> 0).
Proof.
  intros Hn Hr Hs H. unfold u_start in H. names_in H. change (String.eqb "ecm" "ecm_exp") with false in H.
  assert (Hk : nonneg (un_n g) (at_list (un_dseq g))) by (intros i _; apply pos_INR).
  destruct (guess_ecm_inside (un_n g) (at_list (un_dseq g)) (un_str g) rnd nm Hn Hk Hs Hr) as (o & x & E & F & I & P). rewrite E in H. cbn [start_of] in H.
  assert (Ez : forall q, (q < 2 * un_n g)%nat -> z q = x q).
  { intros q Hq. pose proof (all_fin_inv _ _ _ H q Hq) as Q. rewrite (F q Hq) in Q. congruence. }
  split.
  - intros EV i Hi. destruct (EV "newton"%string _ _ ltac:(cbn; tauto) eq_refl eq_refl) as (f & Hf).
    change (u_length g "ecm") with (2 * un_n g)%nat in Hf. rewrite (fun_ecm "newton" _ _ _ _ _ ltac:(cbn; tauto) eq_refl) in Hf. destruct (ecm_divisors _ z) eqn:G; [|discriminate].
    unfold ecm_divisors in G. apply andb_prop in G as [G _]. unfold every in G. rewrite forallb_forall in G.
    specialize (G i ltac:(apply in_seq; split; [lia|exact Hi])). apply andb_prop in G as [G1 G2]. rewrite (Ez i) in G1 by lia. rewrite (Ez (i + un_n g)%nat) in G2 by lia.
    destruct (I i Hi) as [[_ I1] [_ I2]]. split; intros Z.
    + unfold nonzero in G1. rewrite I1 in G1 by (unfold at_list; rewrite Z; reflexivity). destruct (Req_EM_T 0 0); [discriminate|contradiction].
    + unfold nonzero in G2. rewrite I2 in G2 by exact Z. destruct (Req_EM_T 0 0); [discriminate|contradiction].
  - intros HP meth D A Hme HD HA. injection HA as <-. change (u_length g "ecm") with (2 * un_n g)%nat. rewrite (fun_ecm meth D _ _ _ z Hme HD). rewrite ecm_divisors_ok; [eexists; reflexivity|].
    split.
    + intros i Hi. destruct (HP i Hi) as [K S]. rewrite !Ez by lia. destruct (I i Hi) as [[I1 _] [I2 _]]. split; [apply I1; unfold at_list; apply not_0_INR, K|apply I2, S].
    + intros i j Hi Hj Hij. rewrite !Ez by lia. apply P; assumption.
Qed.
Lemma start_ecm_exp_evaluates g rnd nm z : In nm weighted_names -> draws rnd -> nonneg (un_n g) (un_str g) -> u_start g "ecm_exp" rnd (GStr nm) = Some z ->
  (forall i, (i < un_n g)%nat -> un_str g i <> 0) -> u_evaluates g "ecm_exp" z.
Proof.
  intros Hn Hr Hs H HP. unfold u_start in H. names_in H. change (String.eqb "ecm_exp" "ecm_exp") with true in H.
  assert (Hk : nonneg (un_n g) (at_list (un_dseq g))) by (intros i _; apply pos_INR).
  destruct (guess_ecm_exp_start (un_n g) (at_list (un_dseq g)) (un_str g) rnd nm Hn Hk Hs Hr) as (o & o' & x & y & E & _ & F & _ & _ & P). rewrite E in H. cbn [start_of] in H.
  assert (Ez : forall q, (q < 2 * un_n g)%nat -> z q = x q).
  { intros q Hq. pose proof (all_fin_inv _ _ _ H q Hq) as Q. rewrite (F q Hq) in Q. congruence. }
  intros meth D A Hme HD HA. injection HA as <-. change (u_length g "ecm_exp") with (2 * un_n g)%nat. rewrite (fun_ecm_exp meth D _ _ _ z Hme HD). rewrite ecm_exp_divisors_ok; [eexists; reflexivity|].
  intros i j Hi Hj Hij. rewrite !Ez by lia. apply P; assumption.
Qed.

(** * DirectedGraph *)
Lemma start_dcm_evaluates g rnd nm z : In nm binary_names -> draws rnd -> d_paired g -> balanced (dn_out g) (dn_in g) -> d_start g "dcm" rnd (GStr nm) = Some z ->
  d_evaluates g "dcm" z.
Proof.
  intros Hn Hr HP HB H. unfold d_start in H. cbv zeta in H. names_in H. change (String.eqb "dcm" "dcm") with true in H.
  destruct (guess_dcm_inside (dn_out g) (dn_in g) rnd nm Hn Hr (eq_sym HP) HB) as (o & E & F). rewrite E in H. cbn [start_of] in H.
  destruct (d_classes g HP) as (_ & (_ & NO) & (_ & NI)).
  intros meth D A Hme HD HA. rewrite dargs_dcm in HA by (cbn; tauto). injection HA as <-. change (d_length g "dcm") with (2 * d_classes_n g)%nat. unfold d_args_dcm.
  rewrite (fun_dcm meth D _ _ _ _ _ _ z Hme HD). rewrite dcm_divisors_ok; [eexists; reflexivity|].
  assert (K : forall q, (q < d_classes_n g)%nat -> (at_list (rnz_dseq_out (d_red g)) q <> 0 -> 0 < z q) /\ (at_list (rnz_dseq_in (d_red g)) q <> 0 -> 0 < z (q + d_classes_n g)%nat)).
  { intros q Hq. destruct (d_class_error g q HP Hq) as (i & Hi & Ec & No & Ni & Nq). destruct (F i _ _ q No Ni Nq) as (x & y & X & Y & [X1 _] & [Y1 _]).
    change (rnz_n_out (degree_reduction_dir (dn_out g) (dn_in g))) with (d_classes_n g) in Y.
    pose proof (all_fin_inv _ _ _ H q ltac:(change (q < 2 * d_classes_n g)%nat; lia)) as Q1. pose proof (all_fin_inv _ _ _ H (q + d_classes_n g)%nat ltac:(change (q + d_classes_n g < 2 * d_classes_n g)%nat; lia)) as Q2.
    rewrite X in Q1. rewrite Y in Q2. injection Q1 as <-. injection Q2 as <-.
    destruct (d_class_degrees g i HP Hi) as [D1 D2]. rewrite Ec in D1, D2. rewrite D1, D2. split; [exact X1|exact Y1]. }
  split; [intros i Hi; apply NO in Hi as [Hi Hd]; apply (K i Hi), Hd|intros i Hi; apply NI in Hi as [Hi Hd]; apply (K i Hi), Hd].
Qed.
Lemma dcm_exp_evaluates g z : d_evaluates g "dcm_exp" z.
Proof. intros meth D A Hme HD HA. rewrite dargs_dcm in HA by (cbn; tauto). injection HA as <-. unfold d_args_dcm. change (d_length g "dcm_exp") with (2 * d_classes_n g)%nat. rewrite (fun_dcm_exp meth D _ _ _ _ _ _ z Hme HD). eexists. reflexivity. Qed.
Lemma start_decm_evaluates g rnd nm z : In nm weighted_names -> draws rnd -> nonneg (dn_n g) (dn_sout g) -> nonneg (dn_n g) (dn_sin g) ->
  nm <> "strengths"%string \/ ~ single_flow (dn_n g) (dn_sout g) (dn_sin g) -> d_start g "decm" rnd (GStr nm) = Some z -> d_evaluates g "decm" z.
Proof.
  intros Hn Hr So Si HF H. unfold d_start in H. cbv zeta in H. names_in H.
  assert (Ho : nonneg (dn_n g) (at_list (dn_out g))) by (intros i _; apply pos_INR).
  assert (Hi : nonneg (dn_n g) (at_list (dn_in g))) by (intros i _; apply pos_INR).
  destruct (guess_decm_inside (dn_n g) (at_list (dn_out g)) (at_list (dn_in g)) (dn_sout g) (dn_sin g) rnd nm Hn Ho Hi So Si Hr) as (o & x & E & F & I & P). rewrite E in H. cbn [start_of] in H.
  assert (Ez : forall q, (q < 4 * dn_n g)%nat -> z q = x q).
  { intros q Hq. pose proof (all_fin_inv _ _ _ H q Hq) as Q. rewrite (F q Hq) in Q. congruence. }
  destruct (proj2 P HF) as [P1 P2].
  intros meth D A Hme HD HA. rewrite dargs_decm in HA by (cbn; tauto). injection HA as <-. change (d_length g "decm") with (4 * dn_n g)%nat.
  rewrite (fun_decm meth D _ _ _ _ _ z Hme HD). rewrite decm_divisors_ok; [eexists; reflexivity| |].
  - split; [intros r Hr'; rewrite Ez by exact Hr'; apply P1, Hr'|intros i j Li Lj Hij; rewrite !Ez by lia; apply P2; assumption].
  - intros i Li. rewrite !Ez by lia. pose proof (I i ltac:(lia)) as [I1 _]. pose proof (I (i + dn_n g)%nat ltac:(lia)) as [I2 _].
    pose proof (I (i + 2 * dn_n g)%nat ltac:(lia)) as [I3 _]. pose proof (I (i + 3 * dn_n g)%nat ltac:(lia)) as [I4 _]. unfold decm_constraint in *.
    rewrite (proj2 (Nat.ltb_lt i (dn_n g))) in I1 by lia.
    rewrite (proj2 (Nat.ltb_ge (i + dn_n g) (dn_n g))), (proj2 (Nat.ltb_lt (i + dn_n g) (2 * dn_n g))), Nat.add_sub in I2 by lia.
    rewrite (proj2 (Nat.ltb_ge (i + 2 * dn_n g) (dn_n g))), (proj2 (Nat.ltb_ge (i + 2 * dn_n g) (2 * dn_n g))), (proj2 (Nat.ltb_lt (i + 2 * dn_n g) (3 * dn_n g))), Nat.add_sub in I3 by lia.
    rewrite (proj2 (Nat.ltb_ge (i + 3 * dn_n g) (dn_n g))), (proj2 (Nat.ltb_ge (i + 3 * dn_n g) (2 * dn_n g))), (proj2 (Nat.ltb_ge (i + 3 * dn_n g) (3 * dn_n g))), Nat.add_sub in I4 by lia.
    repeat split; assumption.
Qed.
Lemma start_decm_exp_evaluates g rnd nm z : In nm weighted_names -> draws rnd -> nonneg (dn_n g) (dn_sout g) -> nonneg (dn_n g) (dn_sin g) ->
  nm <> "strengths"%string \/ ~ single_flow (dn_n g) (dn_sout g) (dn_sin g) -> d_start g "decm_exp" rnd (GStr nm) = Some z -> d_evaluates g "decm_exp" z.
Proof.
  intros Hn Hr So Si HF H. unfold d_start in H. cbv zeta in H. names_in H.
  assert (Ho : nonneg (dn_n g) (at_list (dn_out g))) by (intros i _; apply pos_INR).
  assert (Hi : nonneg (dn_n g) (at_list (dn_in g))) by (intros i _; apply pos_INR).
  destruct (guess_decm_exp_start (dn_n g) (at_list (dn_out g)) (at_list (dn_in g)) (dn_sout g) (dn_sin g) rnd nm Hn Ho Hi So Si Hr) as (o & x & E & F & _ & _ & _ & P). rewrite E in H. cbn [start_of] in H.
  assert (Ez : forall q, (q < 4 * dn_n g)%nat -> z q = x q).
  { intros q Hq. pose proof (all_fin_inv _ _ _ H q Hq) as Q. rewrite (F q Hq) in Q. congruence. }
  intros meth D A Hme HD HA. rewrite dargs_decm in HA by (cbn; tauto). injection HA as <-. change (d_length g "decm_exp") with (4 * dn_n g)%nat.
  rewrite (fun_decm_exp_entry meth D _ _ _ _ _ z Hme HD).
  assert (G : decm_exp_divisors (dn_n g) z = true).
  { apply decm_exp_divisors_ok. intros i j Li Lj Hij. rewrite !Ez by lia. apply (proj2 P HF); assumption. }
  unfold all_fin. replace (forallb _ _) with true; [eexists; reflexivity|]. symmetry. apply forallb_forall. intros q Hq. apply in_seq in Hq.
  rewrite fdecm_exp_prime_fin by (try exact G; lia). reflexivity.
Qed.

(** * A call that raises *)
Lemma unevaluated e opt m D A z : real_vec m (run_entry (d_fun D) A z) = None -> solved_of (solve_with e opt m (inl D) (Some A) (Some z)) = None.
Proof. intros H. unfold solve_with, solver, solver_init. cbn [p_fun run_problem]. rewrite H. reflexivity. Qed.
(** The named starts exist. *)
Lemma u_start_cm_some g rnd nm : In nm binary_names -> draws rnd -> exists z, u_start g "cm" rnd (GStr nm) = Some z.
Proof.
  intros Hn Hr. unfold u_start. names. destruct (guess_cm_inside (un_dseq g) rnd nm Hn Hr) as (o & E & F).
  change (String.eqb "cm" "cm_exp") with false. rewrite E. cbn [start_of]. unfold all_fin. replace (forallb _ _) with true; [eexists; reflexivity|].
  symmetry. apply forallb_forall. intros q Hq. apply in_seq in Hq. destruct (u_class_rep g q ltac:(change (List.length (np_unique Nat.leb Nat.eqb (un_dseq g))) with (u_length g "cm"); lia)) as (i & Hi & Q1 & Q2).
  destruct (F i _ q Q1 Q2) as (x & -> & _). reflexivity.
Qed.
Lemma finite_all m v x : finite_array m v x -> exists z, all_fin m v = Some z.
Proof.
  intros F. unfold all_fin. replace (forallb _ _) with true; [eexists; reflexivity|].
  symmetry. apply forallb_forall. intros q Hq. apply in_seq in Hq. rewrite (F q ltac:(lia)). reflexivity.
Qed.
Lemma u_start_ecm_some g rnd nm : In nm weighted_names -> draws rnd -> nonneg (un_n g) (un_str g) -> exists z, u_start g "ecm" rnd (GStr nm) = Some z.
Proof.
  intros Hn Hr Hs. unfold u_start. names. change (String.eqb "ecm" "ecm_exp") with false.
  assert (Hk : nonneg (un_n g) (at_list (un_dseq g))) by (intros i _; apply pos_INR).
  destruct (guess_ecm_inside (un_n g) (at_list (un_dseq g)) (un_str g) rnd nm Hn Hk Hs Hr) as (o & x & E & F & _). rewrite E. exact (finite_all _ _ _ F).
Qed.
Lemma u_start_ecm_exp_some g rnd nm : In nm weighted_names -> draws rnd -> nonneg (un_n g) (un_str g) -> exists z, u_start g "ecm_exp" rnd (GStr nm) = Some z /\
  forall i, (i < un_n g)%nat -> un_str g i = 0 -> z (i + un_n g)%nat = 0.
Proof.
  intros Hn Hr Hs. unfold u_start. names. change (String.eqb "ecm_exp" "ecm_exp") with true.
  assert (Hk : nonneg (un_n g) (at_list (un_dseq g))) by (intros i _; apply pos_INR).
  destruct (guess_ecm_exp_start (un_n g) (at_list (un_dseq g)) (un_str g) rnd nm Hn Hk Hs Hr) as (o & o' & x & y & E & _ & F & _). rewrite E. cbn [start_of].
  destruct (finite_all _ _ _ F) as (z & Hz). exists z. split; [exact Hz|]. intros i Hi Z.
  assert (L : (i + un_n g < 2 * un_n g)%nat) by lia. pose proof (all_fin_inv _ _ _ Hz _ L) as Q.
  unfold set_initial_guess_ecm in E. destruct (degree_named _ _ _ _ _) as [f|] eqn:Ef; [|discriminate]. cbn [gbind] in E.
  destruct (strength_named _ _ _ _ _) as [h|] eqn:Eh; [|discriminate]. cbn [gbind fst snd] in E. injection E as <-. cbn [g_x0] in Q. rewrite cat2_r in Q.
  unfold neglog_nonzero in Q. rewrite where_zero_at in Q by exact Z. destruct (Req_EM_T 0 0) as [_|N]; [|contradiction]. congruence.
Qed.
Lemma u_raising_start e g t o z D A : In (t_model t) ["cm"; "cm_exp"; "ecm"; "ecm_exp"]%string -> u_start g (t_model t) (v_rnd e) (t_guess t) = Some z ->
  u_dispatch (t_model t) (t_method t) None = inl D -> u_args g (t_model t) None = Some A -> real_vec (u_length g (t_model t)) (run_entry (d_fun D) A z) = None ->
  snd (u_tool e g t o) = Some ESolver.
Proof.
  intros Hm Hz HD HA HN.
  assert (HR : solved_of (u_result e g t o) = None).
  { assert (EA : u_result e g t o = u_solver e g t (t_model t) (t_method t) (v_rnd e) (t_guess t) None) by (unfold u_result; destruct Hm as [<-|[<-|[<-|[<-|[]]]]]; reflexivity).
    rewrite EA. unfold u_solver. rewrite Hz, HD, HA. apply unevaluated. exact HN. }
  unfold u_tool, u_call. rewrite HR. unfold u_solve_tool, u_call_adjacency. cbn [c_model c_method c_guess c_out]. rewrite Hz.
  unfold u_solve_problem, u_initialize, u_set_guess, u_set_args, degree_reduction_und.
  destruct Hm as [E|[E|[E|[E|[]]]]]; rewrite <- E in *; names; cbn [andthen fst snd ok]; rewrite HD; names; cbn [andthen fst snd ok u_run_solver]; reflexivity.
Qed.
Lemma cm_unevaluated g rnd nm z meth : In nm binary_names -> draws rnd -> u_start g "cm" rnd (GStr nm) = Some z -> In meth descent_methods ->
  (exists i, (i < un_n g)%nat /\ nth i (un_dseq g) O = O) ->
  exists D A, u_dispatch "cm" meth None = inl D /\ u_args g "cm" None = Some A /\ real_vec (u_length g "cm") (run_entry (d_fun D) A z) = None.
Proof.
  intros Hn Hr Hz Hme (i & Hi & Z).
  assert (NE : ~ u_evaluates g "cm" z) by (intros EV; exact (proj1 (start_cm_evaluates g _ nm z Hn Hr Hz) EV i Hi Z)).
  assert (HD : exists D, u_dispatch "cm" meth None = inl D) by (destruct Hme as [<-|[<-|[]]]; eexists; reflexivity). destruct HD as (D & HD).
  exists D. eexists. split; [exact HD|]. split; [reflexivity|]. rewrite (fun_cm _ D _ _ _ z Hme HD).
  destruct (cm_divisors _ z) eqn:G; [|reflexivity]. exfalso. apply NE. intros meth' D' A' Hme' HD' HA'. injection HA' as <-. rewrite (fun_cm meth' D' _ _ _ z Hme' HD'), G. eexists. reflexivity.
Qed.
Lemma isolated_raises_cm e g t o nm : t_model t = "cm"%string -> In (t_method t) descent_methods -> t_guess t = GStr nm -> In nm binary_names -> draws (v_rnd e) ->
  (exists i, (i < un_n g)%nat /\ nth i (un_dseq g) O = O) -> snd (u_tool e g t o) = Some ESolver.
Proof.
  intros Hm Hme Hg Hn Hr HI. destruct (u_start_cm_some g (v_rnd e) nm Hn Hr) as (z & Hz).
  destruct (cm_unevaluated g _ nm z (t_method t) Hn Hr Hz Hme HI) as (D & A & HD & HA & HN).
  apply (u_raising_start e g t o z D A); rewrite ?Hm; try assumption; [cbn; tauto|rewrite Hg; exact Hz].
Qed.
Lemma isolated_raises_ecm e g t o nm : t_model t = "ecm"%string -> In (t_method t) descent_methods -> t_guess t = GStr nm -> In nm weighted_names -> draws (v_rnd e) ->
  nonneg (un_n g) (un_str g) -> (exists i, (i < un_n g)%nat /\ (nth i (un_dseq g) O = O \/ un_str g i = 0)) -> snd (u_tool e g t o) = Some ESolver.
Proof.
  intros Hm Hme Hg Hn Hr Hs (i & Hi & Z). destruct (u_start_ecm_some g (v_rnd e) nm Hn Hr Hs) as (z & Hz).
  assert (NE : ~ u_evaluates g "ecm" z) by (intros EV; destruct (proj1 (start_ecm_evaluates g _ nm z Hn Hr Hs Hz) EV i Hi) as [Z1 Z2]; destruct Z; contradiction).
  assert (HD : exists D, u_dispatch "ecm" (t_method t) None = inl D) by (destruct Hme as [<-|[<-|[]]]; eexists; reflexivity). destruct HD as (D & HD).
  eapply (u_raising_start e g t o z D); rewrite ?Hm; try assumption; [cbn; tauto|rewrite Hg; exact Hz|reflexivity|].
  change (u_length g "ecm") with (2 * un_n g)%nat. rewrite (fun_ecm _ D _ _ _ z Hme HD).
  destruct (ecm_divisors _ z) eqn:G; [|reflexivity]. exfalso. apply NE. intros meth D' A' Hme' HD' HA'. injection HA' as <-. change (u_length g "ecm") with (2 * un_n g)%nat. rewrite (fun_ecm meth D' _ _ _ z Hme' HD'), G. eexists. reflexivity.
Qed.
(** In the exponential model the start of a node without strength is 0, so its factor is 1:
    two such nodes divide by zero. *)
Lemma isolated_raises_ecm_exp e g t o nm : t_model t = "ecm_exp"%string -> In (t_method t) descent_methods -> t_guess t = GStr nm -> In nm weighted_names -> draws (v_rnd e) ->
  nonneg (un_n g) (un_str g) -> (exists i j, (i < un_n g)%nat /\ (j < un_n g)%nat /\ i <> j /\ un_str g i = 0 /\ un_str g j = 0) -> snd (u_tool e g t o) = Some ESolver.
Proof.
  intros Hm Hme Hg Hn Hr Hs (i & j & Hi & Hj & Hij & Zi & Zj). destruct (u_start_ecm_exp_some g (v_rnd e) nm Hn Hr Hs) as (z & Hz & Z).
  assert (HD : exists D, u_dispatch "ecm_exp" (t_method t) None = inl D) by (destruct Hme as [<-|[<-|[]]]; eexists; reflexivity). destruct HD as (D & HD).
  eapply (u_raising_start e g t o z D); rewrite ?Hm; try assumption; [cbn; tauto|rewrite Hg; exact Hz|reflexivity|].
  change (u_length g "ecm_exp") with (2 * un_n g)%nat. rewrite (fun_ecm_exp _ D _ _ _ z Hme HD).
  destruct (ecm_exp_divisors _ z) eqn:G; [|reflexivity]. exfalso. unfold ecm_exp_divisors, ecm_pairs in G. rewrite every_other_true in G.
  specialize (G i j Hi Hj Hij). apply andb_prop in G as [G _]. rewrite (Z i Hi Zi), (Z j Hj Zj), Ropp_0, exp_0 in G. unfold nonzero in G. destruct (Req_EM_T _ 0) as [_|N]; [discriminate|apply N; ring].
Qed.
(** CReMa on the probabilities of [cm]. *)
Lemma isolated_raises_crema e g t o nm : In (t_model t) ["crema"; "crema-sparse"]%string -> t_adjacency t = AdjName "cm" -> In (t_method_adjacency t) descent_methods ->
  t_guess_adjacency t = GStr nm -> In nm binary_names -> draws (v_rnd_adjacency e) -> (exists i, (i < un_n g)%nat /\ nth i (un_dseq g) O = O) -> snd (u_tool e g t o) = Some ESolver.
Proof.
  intros Hm Ha Hme Hg Hn Hr HI. destruct (u_start_cm_some g (v_rnd_adjacency e) nm Hn Hr) as (z & Hz).
  destruct (cm_unevaluated g _ nm z (t_method_adjacency t) Hn Hr Hz Hme HI) as (D & A & HD & HA & HN).
  assert (HR : solved_of (u_result_adjacency e g t) = None).
  { unfold u_result_adjacency. rewrite Ha. unfold u_solver. rewrite Hg, Hz, HD, HA. apply unevaluated. exact HN. }
  unfold u_tool, u_solve_tool, u_call. change (c_model (u_call_adjacency e g t (solved_of (u_result e g t o)))) with (t_model t).
  assert (HS : snd (u_solve_crema g (u_call_adjacency e g t (solved_of (u_result e g t o))) o) = Some ESolver).
  { unfold u_solve_crema, u_set_adjacency, u_call_adjacency. cbn [c_adjacency c_method_adjacency c_guess_adjacency c_out_adjacency c_model]. rewrite Ha, HR.
    unfold u_start_adjacency. rewrite Ha, Hg, Hz. unfold u_solve_problem, u_initialize, u_set_guess, u_set_args, degree_reduction_und. names. cbn [andthen fst snd ok]. rewrite HD. names.
    cbn [andthen fst snd ok u_run_solver]. reflexivity. }
  destruct Hm as [<-|[<-|[]]]; names; destruct (u_solve_crema _ _ _) as [q r]; cbn [snd] in HS; subst r; reflexivity.
Qed.
