(** A new object and its first call of [solve_tool]. *)
From Coq Require Import Reals List Arith Bool ZArith String Lia Lra.
From Verif Require Import Base SpecGraph SpecEnsemble SpecNetwork SpecLife SpecSolve SpecTool
  ModelCM ModelECM ModelDCM ModelDECM ModelCReMa ModelNetwork ModelLife ModelSolver ModelDispatch ModelGuess ModelRun ModelSolve ModelTool ModelObject SpecObject.
From Verif Require Import ProofsNetwork ProofsLife ProofsLifeForms ProofsSolve ProofsSolveU ProofsSolveD ProofsTool ProofsToolD.
Import ListNotations.
Local Open Scope R_scope.

(** * Degrees *)
Lemma Int_part_INR k : Int_part (INR k) = Z.of_nat k.
Proof.
  rewrite INR_IZR_INZ. unfold Int_part. assert (E : (Z.of_nat k + 1)%Z = up (IZR (Z.of_nat k))); [|rewrite <- E; lia].
  apply tech_up; rewrite plus_IZR; lra.
Qed.
Lemma naturals_map k : naturals (map INR k) = Some k.
Proof.
  unfold naturals. assert (E : map (fun r => Z.to_nat (Int_part r)) (map INR k) = k).
  { rewrite map_map. rewrite <- (map_id k) at 2. apply map_ext. intros a. rewrite Int_part_INR. apply Nat2Z.id. }
  rewrite E. destruct (list_eq_dec _ _ _); [reflexivity|]. contradiction.
Qed.
Lemma naturals_inv d k : naturals d = Some k -> d = map INR k.
Proof. unfold naturals. destruct (list_eq_dec _ _ _) as [E|_]; [|discriminate]. intros H. injection H as <-. symmetry. exact E. Qed.
Lemma row_naturals n a : exists k, naturals (row_degrees n a) = Some k /\ List.length k = n.
Proof. exists (map (fun i => count (fun j => positiveb (a i j)) (seq 0 n)) (seq 0 n)). split; [unfold row_degrees; rewrite <- map_map; apply naturals_map|rewrite map_length, seq_length; reflexivity]. Qed.
Lemma col_naturals n a : exists k, naturals (col_degrees n a) = Some k /\ List.length k = n.
Proof. exists (map (fun j => count (fun i => positiveb (a i j)) (seq 0 n)) (seq 0 n)). split; [unfold col_degrees; rewrite <- map_map; apply naturals_map|rewrite map_length, seq_length; reflexivity]. Qed.

(** * The flag [is_sparse] *)
Definition u_blind (f : ustate -> ran ustate) : Prop := forall b o, f (us_set_sparse b o) = (us_set_sparse b (fst (f o)), snd (f o)).
Lemma u_blind_then f k : u_blind f -> u_blind k -> u_blind (fun o => andthen (f o) k).
Proof.
  intros Hf Hk b o. unfold andthen. rewrite Hf. destruct (f o) as [o1 [e1|]]; cbn [fst snd]; [reflexivity|]. rewrite Hk. destruct (k o1); reflexivity.
Qed.
Ltac same := repeat match goal with |- context [match ?x with _ => _ end] => destruct x; try reflexivity end.
Lemma u_guess_blind g m v : u_blind (u_set_guess g m v).
Proof. intros b o. unfold u_set_guess. same. Qed.
Lemma u_args_blind g m : u_blind (u_set_args g m).
Proof.
  intros b o. unfold u_set_args. destruct (among m ["crema"; "crema-sparse"]%string); [cbn; destruct (us_adj o); reflexivity|].
  destruct (among m _); [destruct (degree_reduction_und (un_dseq g)) as [[[? ?] ?] ?]; reflexivity|]. destruct (among m _); reflexivity.
Qed.
Lemma u_initialize_blind g m meth v : u_blind (u_initialize g m meth v).
Proof.
  unfold u_initialize. apply (u_blind_then _ _ (u_guess_blind g m v)). apply (u_blind_then _ _ (u_args_blind g m)). intros b o.
  destruct (u_dispatch m meth None) as [d|[|]]; try reflexivity; destruct (among m ["cm"; "cm_exp"]%string); reflexivity.
Qed.
Lemma u_solver_blind g out : u_blind (u_run_solver g out).
Proof.
  intros b o. unfold u_run_solver. destruct out as [v|]; [|reflexivity]. unfold u_set_solved, ok. destruct (degree_reduction_und (un_dseq g)) as [[[? ?] ?] ?]. cbn [us_last us_set_sparse fst snd].
  destruct (us_last o) as [m|]; [|reflexivity]. same.
Qed.
Lemma u_problem_blind g m meth v out : u_blind (u_solve_problem g m meth v out).
Proof.
  intros b o. unfold u_solve_problem.
  change (us_set_last (Some m) (us_set_sparse b o)) with (us_set_sparse b (us_set_last (Some m) o)).
  apply (u_blind_then _ _ (u_initialize_blind g m meth v) (u_solver_blind g out)).
Qed.
Lemma u_problem_beta g m meth v out o : ~ In m ["crema"; "crema-sparse"]%string -> us_beta (fst (u_solve_problem g m meth v out o)) = us_beta o.
Proof.
  intros N. assert (F : among m ["crema"; "crema-sparse"]%string = false).
  { unfold among. cbn [existsb]. destruct (String.eqb_spec m "crema") as [->|_]; [elim N; cbn; tauto|]. destruct (String.eqb_spec m "crema-sparse") as [->|_]; [elim N; cbn; tauto|]. reflexivity. }
  unfold u_solve_problem, u_initialize, u_set_guess, u_set_args. rewrite F. unfold andthen, u_run_solver, u_set_solved, ok, raising.
  destruct v as [v|]; [|reflexivity]. destruct (degree_reduction_und (un_dseq g)) as [[[? ?] ?] ?].
  destruct (among m ["ecm"; "ecm_exp"]%string); destruct (among m ["cm"; "cm_exp"]%string); cbn [fst snd];
    destruct (u_dispatch m meth None) as [d|[|]]; cbn [fst snd]; try reflexivity; destruct out as [out|]; try reflexivity; cbn [us_last us_set_pm us_set_step us_set_args us_set_xy us_set_last fst]; rewrite ?F;
    repeat match goal with |- context [if ?x then _ else _] => destruct x; try reflexivity end.
Qed.
Lemma u_error_blind g b o : us_beta o = None -> u_solution_error g (us_set_sparse b o) = (us_set_sparse b (fst (u_solution_error g o)), snd (u_solution_error g o)).
Proof.
  intros HB. unfold u_solution_error. cbn [us_last us_set_sparse]. destruct (us_last o) as [m|]; [|reflexivity].
  destruct (among m _); [unfold u_error_strength, u_error_degree; cbn [us_x us_set_sparse us_beta us_set_ek]; destruct (us_x o); cbn [us_beta us_set_ek us_set_sparse]; rewrite HB; reflexivity|].
  destruct (among m _); [|reflexivity]. cbn [us_x us_y us_set_sparse]. destruct (us_x o); [|reflexivity]. destruct (us_y o); reflexivity.
Qed.
Lemma among_in m l : among m l = true <-> In m l.
Proof.
  unfold among. rewrite existsb_exists. split; [intros (x & Hx & E); apply String.eqb_eq in E; subst; exact Hx|intros H; exists m; split; [exact H|apply String.eqb_refl]].
Qed.
Lemma u_tool_sparse e g t b : 
  u_alike (Run (u_tool e g t (u_fresh b)) (u_report e g t (u_fresh b))) (Run (u_tool e g t (u_fresh false)) (u_report e g t (u_fresh false))).
Proof.
  destruct (among (t_model t) ["crema"; "crema-sparse"]%string) eqn:C.
  - assert (ER : u_result e g t (u_fresh b) = u_result e g t (u_fresh false)) by (unfold u_result; rewrite C; reflexivity).
    assert (ET : u_tool e g t (u_fresh b) = u_tool e g t (u_fresh false)).
    { unfold u_tool, u_call. rewrite ER. unfold u_solve_tool. cbn [c_model u_call_adjacency]. rewrite C.
      apply among_in in C. destruct C as [<-|[<-|[]]]; reflexivity. }
    unfold u_report. rewrite ER, ET. unfold u_alike. destruct (u_tool e g t (u_fresh false)) as [o1 e1]. repeat split.
  - assert (ER : u_result e g t (u_fresh b) = u_result e g t (u_fresh false)) by (unfold u_result; rewrite C; reflexivity).
    unfold u_report. rewrite ER. unfold u_tool, u_call. rewrite ER. set (c := u_call_adjacency e g t _). change (u_fresh b) with (us_set_sparse b (u_fresh false)).
    assert (E : u_solve_tool g c (us_set_sparse b (u_fresh false)) = (us_set_sparse b (fst (u_solve_tool g c (u_fresh false))), snd (u_solve_tool g c (u_fresh false)))).
    { unfold u_solve_tool. change (c_model c) with (t_model t). rewrite C. destruct (among (t_model t) ["cm"; "cm_exp"; "ecm"; "ecm_exp"]%string).
      - rewrite u_problem_blind. pose proof (u_problem_beta g (t_model t) (c_method c) (c_guess c) (c_out c) (u_fresh false)) as B.
        specialize (B ltac:(intros Q; apply among_in in Q; congruence)). unfold andthen.
        destruct (u_solve_problem g (t_model t) (c_method c) (c_guess c) (c_out c) (u_fresh false)) as [o1 [e1|]]; cbn [fst snd] in *; [reflexivity|]. apply u_error_blind. exact B.
      - reflexivity. }
    rewrite E. unfold u_alike. destruct (u_solve_tool g c (u_fresh false)) as [o1 e1]. repeat split.
Qed.
(** Objects with the same sequences. *)
Lemma u_numbers (L : Type) (leb eqb : L -> L -> bool) adj es d s g : (forall v, s <> SeqList v) -> u_construct leb eqb adj es d s = inl g -> u_str_kind g = Numbers.
Proof.
  intros Hs. unfold u_construct. destruct (ModelLife.u_initialize leb eqb u_blank adj es d s) as [g0 [ex|]] eqn:E; [discriminate|]. intros [= <-]. cbn [u_str_kind].
  assert (KM : forall k sp n a, u_from_matrix (@u_blank L) k sp n a = (g0, None) -> u_str_kind g0 = Numbers).
  { intros k sp n a. unfold u_from_matrix. destruct (has_negative n a); [discriminate|]. destruct (degree k n a); [|discriminate].
    destruct (Req_EM_T _ _); [intros [= <-]; reflexivity|]. destruct (strength k n a); [|discriminate]. intros [= <-]; reflexivity. }
  assert (KA : forall adj, u_init_adjacency (@u_blank L) adj = (g0, None) -> u_str_kind g0 = Numbers).
  { intros [|n a|k st n a|n a|]; cbn [u_init_adjacency]; try discriminate; try (intros [= <-]; reflexivity).
    - destruct (Nat.ltb 0 (n * n)); [apply KM|intros [= <-]; reflexivity].
    - destruct (Nat.ltb 0 st); [apply KM|intros [= <-]; reflexivity]. }
  assert (KE : u_init_edges leb eqb u_blank es = (g0, None) -> u_str_kind g0 = Numbers).
  { destruct es as [|[|e0 es]|[|e0 es]| |]; cbn [u_init_edges]; try discriminate; try (intros [= <-]; reflexivity).
    - destruct (edgelist_from_edgelist_undirected leb eqb (e0 :: es)) as [[[? ?] ?]|]; [|discriminate]. intros [= <-]; reflexivity.
    - destruct (edgelist_from_edgelist_undirected_w leb eqb (e0 :: es)) as [[[[? ?] ?] ?]|]; [|discriminate]. intros [= <-]; reflexivity. }
  assert (KS : forall g n, u_str_kind g = Numbers -> @u_init_strengths_with L g n s = (g0, None) -> u_str_kind g0 = Numbers).
  { intros g n HG. unfold u_init_strengths_with. destruct s as [|[|r v]|[|r v]| |]; try discriminate; try (intros [= <-]; exact HG).
    - destruct (list_has_negative (r :: v)); [discriminate|]. destruct (negb _); [discriminate|]. intros [= <-]; reflexivity.
    - destruct (list_has_negative (r :: v)); [discriminate|]. destruct (negb _); discriminate. }
  assert (KD : u_init_degrees (@u_blank L) d s = (g0, None) -> u_str_kind g0 = Numbers).
  { unfold u_init_degrees. destruct d as [|[|r v]|[|r v]| |]; try discriminate; try (intros [= <-]; reflexivity); (destruct (list_has_negative (r :: v)); [discriminate|]); [|discriminate]. apply KS. reflexivity. }
  assert (KW : u_init_strengths (@u_blank L) s = (g0, None) -> u_str_kind g0 = Numbers).
  { unfold u_init_strengths. destruct s as [|[|r v]|v| |]; try discriminate; try (intros [= <-]; reflexivity); [|destruct (Hs v); reflexivity].
    destruct (list_has_negative (r :: v)); [discriminate|]. intros [= <-]; reflexivity. }
  unfold ModelLife.u_initialize in E. destruct adj; try (eapply KA; exact E). destruct es; try (apply KE; exact E). destruct d; try (apply KD; exact E). apply KW. exact E.
Qed.
Lemma u_same_data L e (g g' : @ugraph L) t : u_str_kind g = u_str_kind g' -> u_dseq g = u_dseq g' -> u_strength g = u_strength g' -> u_alike (u_new_tool e g t) (u_new_tool e g' t).
Proof.
  intros HK HD HS. unfold u_new_tool, u_object_tool. rewrite HK, HD, HS.
  assert (K : forall net, u_alike (Run (u_tool e net t (u_fresh (u_is_sparse g))) (u_report e net t (u_fresh (u_is_sparse g)))) (Run (u_tool e net t (u_fresh (u_is_sparse g'))) (u_report e net t (u_fresh (u_is_sparse g'))))).
  { intros net. pose proof (u_tool_sparse e net t (u_is_sparse g)) as A. pose proof (u_tool_sparse e net t (u_is_sparse g')) as B. unfold u_alike in *.
    destruct (u_tool e net t (u_fresh (u_is_sparse g))), (u_tool e net t (u_fresh (u_is_sparse g'))), (u_tool e net t (u_fresh false)). destruct A as (-> & -> & ->), B as (-> & -> & ->). auto. }
  destruct (u_dseq g') as [d|]; [destruct (naturals d); [destruct (u_strength g'); [destruct (_ && _); [exact I|apply K]|destruct (reads_strengths _); [exact I|apply K]]|exact I]|].
  destruct (u_strength g'); [|exact I]. destruct (_ && _); [|exact I]. destruct (listed _); [exact I|apply K].
Qed.

(** * DirectedGraph *)
Definition d_blind (f : dstate -> ran dstate) : Prop := forall b o, f (ds_set_sparse b o) = (ds_set_sparse b (fst (f o)), snd (f o)).
Lemma d_blind_then f k : d_blind f -> d_blind k -> d_blind (fun o => andthen (f o) k).
Proof.
  intros Hf Hk b o. unfold andthen. rewrite Hf. destruct (f o) as [o1 [e1|]]; cbn [fst snd]; [reflexivity|]. rewrite Hk. destruct (k o1); reflexivity.
Qed.
Lemma d_guess_blind g m v : d_blind (d_set_guess g m v).
Proof. intros b o. unfold d_set_guess. same. Qed.
Lemma d_args_blind g m : d_blind (d_set_args g m).
Proof.
  intros b o. unfold d_set_args. destruct (among m ["crema"; "crema-sparse"]%string); [cbn; destruct (ds_adj o); reflexivity|].
  destruct (among m ["dcm"; "dcm_exp"]%string); [reflexivity|]. destruct (among m ["decm"; "decm_exp"]%string); reflexivity.
Qed.
Lemma d_initialize_blind g m meth v : d_blind (d_initialize g m meth v).
Proof.
  unfold d_initialize. apply (d_blind_then _ _ (d_guess_blind g m v)). apply (d_blind_then _ _ (d_args_blind g m)). intros b o.
  destruct (d_dispatch m meth None) as [d|[|]]; try reflexivity; destruct (among m ["dcm"; "dcm_exp"]%string); reflexivity.
Qed.
Lemma d_solver_blind g full out : d_blind (d_run_solver g full out).
Proof.
  intros b o. unfold d_run_solver. destruct out as [v|]; [|reflexivity]. unfold d_set_solved, ok. cbn [ds_last ds_set_sparse fst snd].
  destruct (ds_last o) as [m|]; [|reflexivity]. same.
Qed.
Lemma d_problem_blind g full m meth v out : d_blind (d_solve_problem g full m meth v out).
Proof.
  intros b o. unfold d_solve_problem.
  change (ds_set_last (Some m) (ds_set_sparse b o)) with (ds_set_sparse b (ds_set_last (Some m) o)).
  apply (d_blind_then _ _ (d_initialize_blind g m meth v) (d_solver_blind g full out)).
Qed.
Lemma d_error_degree_b g o : ds_bo (d_error_degree g o) = ds_bo o /\ ds_bi (d_error_degree g o) = ds_bi o.
Proof. unfold d_error_degree. destruct (ds_x o); [|auto]. destruct (ds_y o); auto. Qed.
Lemma d_error_blind g b o : (forall m, ds_last o = Some m -> In m ["dcm"; "dcm_exp"; "crema"; "crema-sparse"]%string -> ds_bo o = None) ->
  d_solution_error g (ds_set_sparse b o) = (ds_set_sparse b (fst (d_solution_error g o)), snd (d_solution_error g o)).
Proof.
  intros HB. unfold d_solution_error. cbn [ds_last ds_set_sparse]. destruct (ds_last o) as [m|] eqn:EL; [|reflexivity].
  destruct (among m ["dcm_exp"; "dcm"; "crema"; "crema-sparse"]%string) eqn:A.
  - apply among_in in A. specialize (HB m eq_refl ltac:(cbn in A |- *; tauto)).
    unfold d_error_strength. rewrite (proj1 (d_error_degree_b g _)), (proj1 (d_error_degree_b g o)). cbn [ds_bo ds_set_sparse]. rewrite HB. unfold d_error_degree. cbn [ds_x ds_y ds_set_sparse].
    destruct (ds_x o); [|reflexivity]. destruct (ds_y o); reflexivity.
  - destruct (among m ["decm"; "decm_exp"]%string); [|reflexivity]. cbn [ds_x ds_y ds_bo ds_bi ds_set_sparse].
    destruct (ds_x o); [|reflexivity]. destruct (ds_y o); [|reflexivity]. destruct (ds_bo o); [|reflexivity]. destruct (ds_bi o); reflexivity.
Qed.
Lemma d_problem_frame g full m meth v out o : In m ["dcm"; "dcm_exp"; "decm"; "decm_exp"]%string -> ds_bo o = None ->
  snd (d_solve_problem g full m meth v out o) = None -> ds_last (fst (d_solve_problem g full m meth v out o)) = Some m /\
    (In m ["dcm"; "dcm_exp"]%string -> ds_bo (fst (d_solve_problem g full m meth v out o)) = None).
Proof.
  intros Hm HB. unfold d_solve_problem, d_initialize, d_set_guess, d_set_args, andthen, d_run_solver, d_set_solved, ok, raising.
  destruct Hm as [<-|[<-|[<-|[<-|[]]]]]; cbn [among existsb String.eqb Ascii.eqb Bool.eqb orb andb];
    (destruct v as [v|]; [|discriminate]); cbn [fst snd]; destruct (d_dispatch _ meth None) as [d|[|]]; cbn [fst snd]; try discriminate; (destruct out as [out|]; [|discriminate]); cbn; intros _;
    (split; [reflexivity|]); intros [Q|[Q|[]]]; try discriminate Q; exact HB.
Qed.
Lemma d_tool_sparse e g nz t b :
  d_alike (Run (d_tool_index e g nz t (d_fresh b)) (report_of (d_result_index e g nz t (d_fresh b))))
          (Run (d_tool_index e g nz t (d_fresh false)) (report_of (d_result_index e g nz t (d_fresh false)))).
Proof.
  destruct (is_crema (t_model t)) eqn:C.
  - assert (ER : d_result_index e g nz t (d_fresh b) = d_result_index e g nz t (d_fresh false)) by (unfold d_result_index; rewrite C; reflexivity).
    assert (ET : d_tool_index e g nz t (d_fresh b) = d_tool_index e g nz t (d_fresh false)).
    { unfold d_tool_index. rewrite ER. unfold d_solve_tool. cbn [c_model d_call_adjacency].
      apply among_in in C. destruct C as [<-|[<-|[]]]; reflexivity. }
    rewrite ER, ET. unfold d_alike. destruct (d_tool_index e g nz t (d_fresh false)) as [o1 e1]. repeat split.
  - assert (ER : d_result_index e g nz t (d_fresh b) = d_result_index e g nz t (d_fresh false)) by (unfold d_result_index, d_result; rewrite C; unfold is_crema in C; rewrite C; reflexivity).
    rewrite ER. unfold d_tool_index. rewrite ER. set (c := d_call_adjacency e g t _). change (d_fresh b) with (ds_set_sparse b (d_fresh false)).
    assert (E : d_solve_tool g c (ds_set_sparse b (d_fresh false)) = (ds_set_sparse b (fst (d_solve_tool g c (d_fresh false))), snd (d_solve_tool g c (d_fresh false)))).
    { unfold d_solve_tool. change (c_model c) with (t_model t). unfold is_crema in C. rewrite C. destruct (among (t_model t) ["dcm"; "dcm_exp"; "decm"; "decm_exp"]%string) eqn:A; [|reflexivity].
      apply among_in in A. rewrite d_problem_blind. pose proof (d_problem_frame g (c_full c) (t_model t) (c_method c) (c_guess c) (c_out c) (d_fresh false) A eq_refl) as B. unfold andthen.
      destruct (d_solve_problem g (c_full c) (t_model t) (c_method c) (c_guess c) (c_out c) (d_fresh false)) as [o1 [e1|]]; cbn [fst snd] in *; [reflexivity|].
      destruct (B eq_refl) as [B1 B2]. apply d_error_blind. intros m Em Hm. rewrite B1 in Em. injection Em as <-. apply B2. cbn in Hm |- *.
      destruct Hm as [Q|[Q|[Q|[Q|[]]]]]; try tauto; rewrite <- Q in C; discriminate. }
    rewrite E. unfold d_alike. destruct (d_solve_tool g c (d_fresh false)) as [o1 e1]. repeat split.
Qed.
(** Objects with the same sequences; the index arrays matter for CReMa only. *)
Lemma d_result_noindex e g nz nz' t o : is_crema (t_model t) = false -> d_result_index e g nz t o = d_result_index e g nz' t o.
Proof. intros C. unfold d_result_index. rewrite C. reflexivity. Qed.
Lemma d_from_matrix_kind (L : Type) (g g' : @dgraph L) k sp n a : d_str_kind g = Numbers -> d_from_matrix g k sp n a = (g', None) -> d_deg_kind g' = Numbers /\ d_str_kind g' = Numbers.
Proof.
  intros HG. unfold d_from_matrix. destruct (has_negative n a); [discriminate|]. destruct (in_degree k n a); [|discriminate]. destruct (out_degree k n a); [|discriminate].
  destruct (Req_EM_T _ _); [intros [= <-]; split; [reflexivity|exact HG]|]. destruct (in_strength k n a); [|discriminate]. destruct (out_strength k n a); [|discriminate]. intros [= <-]; split; reflexivity.
Qed.
Lemma d_matrix_numbers (L : Type) (leb eqb : L -> L -> bool) adj g : d_construct leb eqb adj NoEdges NoSeq NoSeq = inl g -> adj <> NoAdj -> d_deg_kind g = Numbers /\ d_str_kind g = Numbers.
Proof.
  intros H HA. revert H. unfold d_construct, ModelLife.d_initialize. destruct adj as [|n a|k st n a|n a|]; cbn [d_init_adjacency]; try discriminate; [contradiction HA; reflexivity| |].
  - destruct (Nat.ltb 0 (n * n)); [|intros [= <-]; split; reflexivity]. destruct (d_from_matrix d_blank Ndarray false n a) as [g' [ex|]] eqn:E; [discriminate|]. intros [= <-]. eapply d_from_matrix_kind; [|exact E]. reflexivity.
  - destruct (Nat.ltb 0 st); [|intros [= <-]; split; reflexivity]. destruct (d_from_matrix d_blank k true n a) as [g' [ex|]] eqn:E; [discriminate|]. intros [= <-]. eapply d_from_matrix_kind; [|exact E]. reflexivity.
Qed.
Lemma d_edges_objects (L : Type) (leb eqb : L -> L -> bool) es g : (exists p, es = PairEdges p /\ p <> []) \/ (exists p, es = TripleEdges p /\ p <> []) ->
  d_construct leb eqb NoAdj es NoSeq NoSeq = inl g -> d_deg_kind g = Objects /\ d_str_kind g = Numbers.
Proof.
  intros HE. unfold d_construct, ModelLife.d_initialize. destruct HE as [(p & -> & HN)|(p & -> & HN)]; (destruct p as [|e0 p]; [contradiction HN; reflexivity|]); cbn [d_init_edges].
  - destruct (edgelist_from_edgelist_directed leb eqb (e0 :: p)) as [[[[? ?] ?] ?]|]; [|discriminate]. intros [= <-]; split; reflexivity.
  - destruct (edgelist_from_edgelist_directed_w leb eqb (e0 :: p)) as [[[[[[? ?] ?] ?] ?] ?]|]; [|discriminate]. intros [= <-]; split; reflexivity.
Qed.
Lemma reads_both model : reads_degrees model = true -> reads_strengths model = true /\ is_crema model = false.
Proof. intros H. apply among_in in H. destruct H as [<-|[<-|[]]]; split; reflexivity. Qed.
Lemma d_same_result L e (g g' : @dgraph L) t : d_str_kind g = Numbers -> d_str_kind g' = Numbers ->
  ((d_deg_kind g = Numbers /\ d_deg_kind g' = Numbers) \/ reads_degrees (t_model t) = false \/ d_out_strength g' = None) -> d_dseq_out g = d_dseq_out g' -> d_dseq_in g = d_dseq_in g' ->
  d_out_strength g = d_out_strength g' -> d_in_strength g = d_in_strength g' -> (forall net o, d_result_index e net (d_index g) t o = d_result_index e net (d_index g') t o) ->
  d_alike (d_new_tool e g t) (d_new_tool e g' t).
Proof.
  intros Q1 Q2 HK HO HI HS HT HX. unfold d_new_tool, d_object_tool. rewrite Q1, Q2, HO, HI, HS, HT. cbn [listed andb].
  assert (K : forall net, d_alike (Run (d_tool_index e net (d_index g) t (d_fresh (d_is_sparse g))) (report_of (d_result_index e net (d_index g) t (d_fresh (d_is_sparse g)))))
                                  (Run (d_tool_index e net (d_index g') t (d_fresh (d_is_sparse g'))) (report_of (d_result_index e net (d_index g') t (d_fresh (d_is_sparse g')))))).
  { intros net. assert (E : forall o, d_result_index e net (d_index g) t o = d_result_index e net (d_index g') t o).
    { intros o. apply HX. }
    assert (E' : d_tool_index e net (d_index g) t (d_fresh (d_is_sparse g)) = d_tool_index e net (d_index g') t (d_fresh (d_is_sparse g))) by (unfold d_tool_index; rewrite E; reflexivity).
    rewrite E, E'. pose proof (d_tool_sparse e net (d_index g') t (d_is_sparse g)) as A. pose proof (d_tool_sparse e net (d_index g') t (d_is_sparse g')) as B. unfold d_alike in *.
    destruct (d_tool_index e net (d_index g') t (d_fresh (d_is_sparse g))), (d_tool_index e net (d_index g') t (d_fresh (d_is_sparse g'))), (d_tool_index e net (d_index g') t (d_fresh false)).
    destruct A as (-> & -> & ->), B as (-> & -> & ->). auto. }
  assert (KR : reads_degrees (t_model t) = false \/ reads_degrees (t_model t) = true /\ reads_strengths (t_model t) = true /\ is_crema (t_model t) = false).
  { destruct (reads_degrees (t_model t)) eqn:RD; [right; split; [reflexivity|apply reads_both; exact RD]|left; reflexivity]. }
  destruct HK as [(K1 & K2)|[K1|K1]].
  3: destruct KR as [K2|(K2 & K3 & K4)].
  4: { rewrite K1, K3. destruct (d_dseq_out g') as [ko|]; destruct (d_dseq_in g') as [ki|]; try exact I. destruct (naturals ko); [|exact I]. destruct (naturals ki); exact I. }
  all: try rewrite K1; try rewrite K2;
    (destruct (d_dseq_out g') as [ko|]; destruct (d_dseq_in g') as [ki|];
     [destruct (naturals ko); [|exact I]; destruct (naturals ki); [|exact I]; try destruct (d_out_strength g'); destruct (d_in_strength g'); try destruct (reads_degrees _); try apply K; destruct (reads_strengths _); try exact I; apply K
     |..]; try destruct (d_out_strength g'); try exact I; destruct (d_in_strength g'); try exact I; destruct (_ && _); try exact I; try destruct (reads_degrees _); apply K).
Qed.
Lemma d_same_data L e (g g' : @dgraph L) t : d_str_kind g = Numbers -> d_str_kind g' = Numbers ->
  ((d_deg_kind g = Numbers /\ d_deg_kind g' = Numbers) \/ reads_degrees (t_model t) = false \/ d_out_strength g' = None) -> d_dseq_out g = d_dseq_out g' -> d_dseq_in g = d_dseq_in g' ->
  d_out_strength g = d_out_strength g' -> d_in_strength g = d_in_strength g' -> (d_index g = d_index g' \/ is_crema (t_model t) = false) ->
  d_alike (d_new_tool e g t) (d_new_tool e g' t).
Proof.
  intros Q1 Q2 HK HO HI HS HT HX. apply d_same_result; try assumption. intros net o. destruct HX as [->|HX]; [reflexivity|]. apply d_result_noindex. exact HX.
Qed.
(** The fixed point of "crema-sparse" does not read the index arrays. *)
Lemma sparse_fixed_noindex e g nz nz' t o : t_model t = "crema-sparse"%string -> t_method t = "fixed-point"%string -> t_verbose t = false ->
  d_result_index e g nz t o = d_result_index e g nz' t o.
Proof.
  intros Hm HM HV.
  assert (K : forall l1 l2 l3 l4, d_result_index e g (Some (l1, l2)) t o = d_result_index e g (Some (l3, l4)) t o /\ d_result_index e g None t o = d_result_index e g (Some (l1, l2)) t o).
  { intros l1 l2 l3 l4. unfold d_result_index. rewrite Hm. cbn [is_crema among existsb String.eqb Ascii.eqb Bool.eqb orb]. cbv zeta.
    set (o1 := fst (d_set_adjacency g (d_call_adjacency e g t None) o)). replace (if ds_sparse o1 then "crema-sparse" else "crema-sparse")%string with "crema-sparse"%string by (destruct (ds_sparse o1); reflexivity).
    rewrite HM, HV. unfold d_args_index. destruct (ds_adj o1) as [a|]; [|split; reflexivity]. cbn [String.eqb Ascii.eqb Bool.eqb andb negb].
    unfold solve_with. destruct (d_dispatch "crema-sparse" "fixed-point" None) as [D|] eqn:ED; [|split; reflexivity]. destruct (d_start g "crema-sparse" (v_rnd e) (t_guess t)) as [x0|]; [|split; reflexivity].
    vm_compute in ED. injection ED as <-. split; f_equal; unfold run_problem; cbn; f_equal. }
  destruct nz as [[l1 l2]|], nz' as [[l3 l4]|]; [apply (K l1 l2 l3 l4)|symmetry; apply (K l1 l2 l1 l2)|apply (K l3 l4 l3 l4)|reflexivity].
Qed.
(** With the index arrays of the strengths, the call of ModelTool. *)
Lemma d_tool_indexed e g t o : d_tool_index e g (Some (nz_real (dn_n g) (dn_sout g), nz_real (dn_n g) (dn_sin g))) t o = d_tool e g t o /\
  d_result_index e g (Some (nz_real (dn_n g) (dn_sout g), nz_real (dn_n g) (dn_sin g))) t o = d_result e g t o.
Proof.
  assert (E : d_result_index e g (Some (nz_real (dn_n g) (dn_sout g), nz_real (dn_n g) (dn_sin g))) t o = d_result e g t o).
  { unfold d_result_index, d_result. destruct (is_crema (t_model t)) eqn:C; [|unfold is_crema in C; rewrite C; reflexivity]. unfold is_crema in C. rewrite C. cbv zeta.
    set (o1 := fst (d_set_adjacency g (d_call_adjacency e g t None) o)). unfold d_solver. f_equal.
    assert (A : forall m, In m ["crema"; "crema-sparse"]%string -> d_args_index g (Some (nz_real (dn_n g) (dn_sout g), nz_real (dn_n g) (dn_sin g))) m (t_method t) (t_verbose t) (ds_adj o1) = d_args g m (ds_adj o1)).
    { intros m [<-|[<-|[]]]; unfold d_args_index, d_args; destruct (ds_adj o1); reflexivity. }
    apply A. destruct (ds_sparse o1); [cbn; tauto|]. apply among_in. exact C. }
  split; [|exact E]. unfold d_tool_index, d_tool, d_call. rewrite E. reflexivity.
Qed.
Lemma nonzero_from a (l : list R) : map fst (filter (fun iv : nat * R => if Req_EM_T (snd iv) 0 then false else true) (combine (seq a (List.length l)) l)) =
  filter (fun i => if Req_EM_T (nth (i - a) l 0) 0 then false else true) (seq a (List.length l)).
Proof.
  revert a. induction l as [|r l IH]; intros a; [reflexivity|].
  assert (F : filter (fun i => if Req_EM_T (nth (i - a) (r :: l) 0) 0 then false else true) (seq (S a) (List.length l)) =
              filter (fun i => if Req_EM_T (nth (i - S a) l 0) 0 then false else true) (seq (S a) (List.length l))).
  { apply filter_ext_in. intros i Hi. apply in_seq in Hi. replace (i - a)%nat with (S (i - S a)) by lia. reflexivity. }
  cbn [List.length seq combine filter snd]. rewrite Nat.sub_diag. cbn [nth].
  replace (nth 0 (r :: l) 0) with r by reflexivity. destruct (Req_EM_T r 0).
  - rewrite IH, <- F. reflexivity.
  - cbn [map fst]. rewrite IH, <- F. reflexivity.
Qed.
Lemma nonzero_nz s : nonzero_reals s = nz_real (List.length s) (at_reals s).
Proof.
  unfold nonzero_reals, nz_real, at_reals. rewrite (nonzero_from 0 s). apply filter_ext. intros i. rewrite Nat.sub_0_r. reflexivity.
Qed.
