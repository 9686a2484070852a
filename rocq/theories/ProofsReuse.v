(** An object reused for a second network. *)
From Coq Require Import Reals List Arith Bool ZArith String Lia Lra.
From Verif Require Import Base SpecGraph SpecEnsemble SpecNetwork SpecLife SpecSolve SpecTool
  ModelCM ModelECM ModelDCM ModelDECM ModelCReMa ModelNetwork ModelLife ModelSolver ModelDispatch ModelGuess ModelRun ModelSolve ModelTool ModelObject SpecObject ModelReuse SpecReuse.
From Verif Require Import ProofsNetwork ProofsLife ProofsLifeDir ProofsLifeForms ProofsSolve ProofsSolveU ProofsSolveD ProofsTool ProofsToolD ProofsObject.
Import ListNotations.
Local Open Scope R_scope.
#[local] Opaque u_dispatch d_dispatch lookup.

(** * The data *)
Lemma u_reuse_data (L : Type) (leb eqb : L -> L -> bool) g o c f : u_accepted c -> u_new leb eqb c = inl f ->
  exists g' o', u_reuse leb eqb g o c = inl (g', o') /\ o' = us_set_sparse (u_is_sparse g') o /\ u_dseq g' = u_dseq f /\ (exists d, u_dseq f = Some d) /\
    match u_strength f with
    | Some s => u_strength g' = Some s /\ u_str_kind g' = Numbers /\ u_str_kind f = Numbers
    | None => u_strength g' = u_strength g /\ u_str_kind g' = u_str_kind g
    end.
Proof.
  intros Ha Hf. unfold u_reuse. set (g0 := fst (ModelLife.u_call leb eqb (u_flagged g (us_sparse o)) CleanEdges)).
  assert (Z1 : u_strength g0 = u_strength g) by reflexivity. assert (Z2 : u_str_kind g0 = u_str_kind g) by reflexivity. assert (Z3 : u_is_initialized g0 = false) by reflexivity.
  clearbody g0. unfold u_new in Hf.
  assert (KM : forall k sp n a f' , k <> OtherKind -> nonneg_matrix n a -> u_from_matrix (@u_blank L) k sp n a = (f', None) ->
    exists g', u_from_matrix g0 k sp n a = (g', None) /\ u_dseq g' = u_dseq f' /\ (exists d, u_dseq f' = Some d) /\
      match u_strength f' with Some s => u_strength g' = Some s /\ u_str_kind g' = Numbers /\ u_str_kind f' = Numbers | None => u_strength g' = u_strength g /\ u_str_kind g' = u_str_kind g end).
  { intros k sp n a f' Hk Hn. unfold u_from_matrix. destruct (has_negative n a); [discriminate|]. destruct (degree k n a) as [d|]; [|discriminate].
    destruct (Req_EM_T _ _).
    - intros [= <-]. eexists. split; [reflexivity|]. split; [reflexivity|]. split; [eexists; reflexivity|]. split; assumption.
    - destruct (strength k n a) as [s|]; [|discriminate]. intros [= <-]. eexists. split; [reflexivity|]. split; [reflexivity|]. split; [eexists; reflexivity|]. repeat split. }
  destruct c as [a|e|s|]; [| | |contradiction].
  - destruct a as [|n a|k stored n a|n a|]; try contradiction; unfold u_construct in Hf; cbn [ModelLife.u_initialize u_init_adjacency ModelLife.u_call] in Hf |- *; rewrite Z3.
    + destruct Ha as [Hn Ha]. rewrite (proj2 (Nat.ltb_lt 0 (n * n)) ltac:(nia)) in Hf |- *. destruct (u_from_matrix u_blank Ndarray false n a) as [f' [ex|]] eqn:E; [discriminate|].
      destruct (KM Ndarray false n a f' ltac:(discriminate) Ha E) as (g' & E' & H). injection Hf as <-. cbn [u_dseq u_strength u_str_kind]. rewrite E'. exists g'. eexists. split; [reflexivity|]. split; [reflexivity|]. exact H.
    + destruct Ha as (Hk & Hs & Ha). rewrite (proj2 (Nat.ltb_lt 0 stored) Hs) in Hf |- *. destruct (u_from_matrix u_blank k true n a) as [f' [ex|]] eqn:E; [discriminate|].
      destruct (KM k true n a f' Hk Ha E) as (g' & E' & H). injection Hf as <-. cbn [u_dseq u_strength u_str_kind]. rewrite E'. exists g'. eexists. split; [reflexivity|]. split; [reflexivity|]. exact H.
  - destruct e as [|es|es| |]; try contradiction; (destruct es as [|e0 es]; [contradiction Ha; reflexivity|]);
      unfold u_construct in Hf; cbn [ModelLife.u_initialize u_init_edges ModelLife.u_call] in Hf |- *; rewrite Z3.
    + destruct (edgelist_from_edgelist_undirected leb eqb (e0 :: es)) as [[[es' deg] nodes]|]; [|discriminate].
      injection Hf as <-. eexists. eexists. split; [reflexivity|]. split; [reflexivity|]. split; [reflexivity|]. split; [eexists; reflexivity|]. split; assumption.
    + destruct (edgelist_from_edgelist_undirected_w leb eqb (e0 :: es)) as [[[[es' deg] st] nodes]|]; [|discriminate].
      injection Hf as <-. eexists. eexists. split; [reflexivity|]. split; [reflexivity|]. split; [reflexivity|]. split; [eexists; reflexivity|]. repeat split.
  - destruct s as [|v|v| |]; try contradiction. destruct Ha as [Hv Hp]. destruct v as [|r v]; [contradiction Hv; reflexivity|].
    unfold u_construct in Hf. cbn [ModelLife.u_initialize u_init_degrees ModelLife.u_call] in Hf |- *. rewrite Z3. rewrite (proj2 (list_has_negative_spec _) Hp) in Hf |- *.
    injection Hf as <-. eexists. eexists. split; [reflexivity|]. split; [reflexivity|]. split; [reflexivity|]. split; [eexists; reflexivity|]. split; assumption.
Qed.

(** * The calls, UndirectedGraph *)
Definition u_agrees (m : string) (a b : ran ustate) : Prop :=
  snd a = snd b /\ (snd a = None -> u_parameters m (fst a) = u_parameters m (fst b) /\ us_err (fst a) = us_err (fst b) /\ us_last (fst a) = us_last (fst b) /\
    us_sol (fst a) = us_sol (fst b) /\ us_step (fst a) = us_step (fst b) /\
    (m = "crema"%string \/ m = "crema-sparse"%string -> us_adj (fst a) = us_adj (fst b) /\ us_given (fst a) = us_given (fst b) /\ us_sparse (fst a) = us_sparse (fst b))).
Lemma u_agrees_run m a b r1 r2 : u_agrees m a b -> (snd a = None -> r1 = r2) -> u_same_outcome m (Run a r1) (Run b r2).
Proof. intros [H1 H2] Hr. destruct a as [o1 e1], b as [o2 e2]. cbn in *. split; [exact H1|]. intros E. specialize (H2 E). split; [apply Hr; exact E|exact H2]. Qed.

#[local] Opaque inf_norm expected_degree_cm expected_ecm drop join2 join4 at_list expected_strength_crema_undirected expected_strength_crema_undirected_sparse adj_edges.
Ltac finish_agree := unfold u_agrees, u_parameters; cbn; split; [reflexivity|]; first [discriminate | intros _; repeat (split; [reflexivity|]); intros [Q|Q]; discriminate Q].
Lemma cm_agrees (g1 g2 : unet) (c1 c2 : ModelSolve.call) o1 o2 : un_dseq g1 = un_dseq g2 -> In (c_model c1) ["cm"; "cm_exp"]%string ->
  c_model c2 = c_model c1 -> c_method c2 = c_method c1 -> c_guess c2 = c_guess c1 -> c_out c2 = c_out c1 -> us_beta o1 = None -> us_beta o2 = None ->
  u_agrees (c_model c1) (u_solve_tool g1 c1 o1) (u_solve_tool g2 c2 o2).
Proof.
  intros ED HM E1 E2 E3 E4 B1 B2. unfold u_solve_tool. rewrite E1, E2, E3, E4. destruct g1 as [k s1], g2 as [k' s2]. cbn in ED. subst k'. destruct o1, o2. cbn in B1, B2. subst.
  unfold u_solve_problem, u_initialize, u_set_guess, u_set_args, u_run_solver, u_set_solved, un_n. cbn [un_dseq].
  destruct (degree_reduction_und k) as [[[q1 q2] q3] q4].
  destruct HM as [<-|[<-|[]]]; cbn [among existsb String.eqb Ascii.eqb Bool.eqb orb]; (destruct (c_guess c1) as [v|]; [|finish_agree]); cbn [andthen ok fst snd];
    (destruct (u_dispatch _ _ None) as [D|[|]]; [|finish_agree|finish_agree]); cbn [andthen ok fst snd]; (destruct (c_out c1) as [w|]; [|finish_agree]); finish_agree.
Qed.
Lemma ecm_agrees (g : unet) (c1 c2 : ModelSolve.call) o1 o2 : In (c_model c1) ["ecm"; "ecm_exp"]%string ->
  c_model c2 = c_model c1 -> c_method c2 = c_method c1 -> c_guess c2 = c_guess c1 -> c_out c2 = c_out c1 ->
  u_agrees (c_model c1) (u_solve_tool g c1 o1) (u_solve_tool g c2 o2).
Proof.
  intros HM E1 E2 E3 E4. unfold u_solve_tool. rewrite E1, E2, E3, E4. destruct o1, o2.
  unfold u_solve_problem, u_initialize, u_set_guess, u_set_args, u_run_solver, u_set_solved, un_n.
  destruct (degree_reduction_und (un_dseq g)) as [[[q1 q2] q3] q4].
  destruct HM as [<-|[<-|[]]]; cbn [among existsb String.eqb Ascii.eqb Bool.eqb orb]; (destruct (c_guess c1) as [v|]; [|finish_agree]); cbn [andthen ok fst snd];
    (destruct (u_dispatch _ _ None) as [D|[|]]; [|finish_agree|finish_agree]); cbn [andthen ok fst snd]; (destruct (c_out c1) as [w|]; [|finish_agree]); finish_agree.
Qed.
(** CReMa: the adjacency first. *)
Definition fresh_adjacency (t : adjacency_arg) (old : option (nat -> R)) (names : list string) : Prop :=
  match t with AdjName a => In a names | AdjMatrix _ => old = None | AdjOther => True end.
Definition adjacency_agrees (a b : ran ustate) : Prop :=
  snd a = snd b /\ (snd a = None -> us_adj (fst a) = us_adj (fst b) /\ us_given (fst a) = us_given (fst b) /\ us_sparse (fst a) = us_sparse (fst b) /\ us_x (fst a) = us_x (fst b) /\
    (us_x (fst a) = None -> us_given (fst a) = Some true)).
#[local] Opaque triu_edges pmatrix_cm.
Ltac fail_agree := unfold adjacency_agrees; cbn; split; [reflexivity|discriminate].
Lemma adjacency_same (g : unet) (c1 c2 : ModelSolve.call) o1 o2 : c_model c2 = c_model c1 -> c_adjacency c2 = c_adjacency c1 -> c_method_adjacency c2 = c_method_adjacency c1 ->
  c_guess_adjacency c2 = c_guess_adjacency c1 -> c_out_adjacency c2 = c_out_adjacency c1 ->
  fresh_adjacency (c_adjacency c1) (us_x o1) ["cm"; "cm_exp"]%string -> fresh_adjacency (c_adjacency c1) (us_x o2) ["cm"; "cm_exp"]%string ->
  adjacency_agrees (u_set_adjacency g c1 o1) (u_set_adjacency g c2 o2).
Proof.
  intros E1 E2 E3 E4 E5 F1 F2. unfold u_set_adjacency. rewrite E1, E2, E3, E4, E5. destruct (c_adjacency c1) as [a|a|].
  - cbn in F1. destruct o1, o2.
    unfold u_solve_problem, u_initialize, u_set_guess, u_set_args, u_run_solver, u_set_solved, un_n. destruct (degree_reduction_und (un_dseq g)) as [[[q1 q2] q3] q4].
    destruct F1 as [<-|[<-|[]]]; cbn [among existsb String.eqb Ascii.eqb Bool.eqb orb]; (destruct (c_guess_adjacency c1) as [v|]; [|fail_agree]); cbn [andthen ok fst snd];
      (destruct (u_dispatch _ _ None) as [D|[|]]; [|fail_agree|fail_agree]); cbn [andthen ok fst snd];
      (destruct (c_out_adjacency c1) as [w|]; [|fail_agree]); generalize (String.eqb (c_model c1) "crema-sparse"); intros [|]; unfold adjacency_agrees; cbn; (split; [reflexivity|]); intros _; do 4 (split; [reflexivity|]); intros Q; discriminate Q.
  - cbn in F1, F2. unfold adjacency_agrees. cbn. rewrite F1, F2. repeat split; reflexivity.
  - split; [reflexivity|discriminate].
Qed.
Lemma error_agrees (g : unet) (m m' : string) p q : In m ["crema"; "crema-sparse"]%string -> In m' ["crema"; "crema-sparse"]%string -> us_last p = Some m' -> us_last q = Some m' -> us_beta p = us_beta q -> us_adj p = us_adj q -> us_given p = us_given q ->
  us_sparse p = us_sparse q -> us_x p = us_x q -> us_sol p = us_sol q -> us_step p = us_step q -> (us_x p = None -> us_given p = Some true) -> us_beta p <> None ->
  u_agrees m (u_solution_error g p) (u_solution_error g q).
Proof.
  intros HM HM' L1 L2. unfold u_solution_error. rewrite L1, L2. assert (B : among m' ["cm"; "cm_exp"; "crema"; "crema-sparse"]%string = true) by (destruct HM' as [<-|[<-|[]]]; reflexivity). rewrite B.
  assert (PE : forall o, u_parameters m o = [us_beta o]) by (intros o; destruct HM as [<-|[<-|[]]]; reflexivity).
  unfold u_agrees. rewrite !PE. destruct p as [x1 y1 b1 a1 gv1 s1 l1 ar1 st1 pm1 so1 ek1 es1 er1], q as [x2 y2 b2 a2 gv2 s2 l2 ar2 st2 pm2 so2 ek2 es2 er2]. cbn in L1, L2 |- *.
  intros <- <- <- <- <- <- <- HG HB. subst l1 l2. clear PE B. unfold u_error_strength, u_error_degree. cbn [us_x].
  set (ex := fun a b => if s1 then expected_strength_crema_undirected_sparse (un_n g) (adj0 a) b else obind (adj_edges a) (fun es => expected_strength_crema_undirected es b)).
  destruct x1 as [x|]; cbn [us_beta us_adj us_set_ek us_sparse].
  - destruct b1 as [b|]; [|contradiction HB; reflexivity]. destruct a1 as [a|]; [|split; [reflexivity|discriminate]]. change (if s1 then _ else _) with (ex a b).
    destruct (ex a b) as [v|]; [|split; [reflexivity|discriminate]]. cbn [us_given us_set_es us_ek us_set_ek]. destruct gv1 as [[|]|]; [repeat split|repeat split|split; [reflexivity|discriminate]].
  - rewrite (HG eq_refl) in *.
    destruct b1 as [b|]; [|contradiction HB; reflexivity]. destruct a1 as [a|]; [|split; [reflexivity|discriminate]]. change (if s1 then _ else _) with (ex a b).
    destruct (ex a b) as [v|]; [|split; [reflexivity|discriminate]]. repeat split.
Qed.
Lemma tail_agrees (g : unet) (m m' meth : string) guess out p q : In m ["crema"; "crema-sparse"]%string -> In m' ["crema"; "crema-sparse"]%string -> us_adj p = us_adj q -> us_given p = us_given q ->
  us_sparse p = us_sparse q -> us_x p = us_x q -> (us_x p = None -> us_given p = Some true) ->
  u_agrees m (andthen (andthen (u_initialize g m' meth guess (us_set_last (Some m') p)) (u_run_solver g out)) (u_solution_error g))
             (andthen (andthen (u_initialize g m' meth guess (us_set_last (Some m') q)) (u_run_solver g out)) (u_solution_error g)).
Proof.
  intros HM HM' A1 A2 A3 A4 HG. destruct p as [x1 y1 b1 a1 gv1 s1 l1 ar1 st1 pm1 so1 ek1 es1 er1], q as [x2 y2 b2 a2 gv2 s2 l2 ar2 st2 pm2 so2 ek2 es2 er2]. cbn in A1, A2, A3, A4, HG. subst a2 gv2 s2 x2.
  unfold u_initialize, u_set_guess, u_set_args, u_run_solver, u_set_solved, un_n. destruct (degree_reduction_und (un_dseq g)) as [[[q1 q2] q3] q4].
  pose proof HM' as HM2. unfold us_set_last. cbn [us_x us_y us_beta us_adj us_given us_sparse us_last us_args us_step us_pm us_sol us_ek us_es us_err].
  destruct HM' as [<-|[<-|[]]]; cbn [among existsb String.eqb Ascii.eqb Bool.eqb orb]; (destruct guess as [v|]; [|split; [reflexivity|discriminate]]); cbn [andthen ok fst snd us_adj us_set_beta];
    (destruct a1 as [adj|]; [|split; [reflexivity|discriminate]]); cbn [andthen ok fst snd];
    (destruct (u_dispatch _ _ None) as [D|[|]]; [|split; [reflexivity|discriminate]|split; [reflexivity|discriminate]]); cbn [andthen ok fst snd];
    (destruct out as [w|]; [|split; [reflexivity|discriminate]]); cbn [andthen ok fst snd us_last us_set_step us_set_args us_set_beta String.eqb Ascii.eqb Bool.eqb];
    (eapply error_agrees; [exact HM|exact HM2|cbn; reflexivity|cbn; reflexivity|cbn; reflexivity|cbn; reflexivity|cbn; reflexivity|cbn; reflexivity|cbn; reflexivity|cbn; reflexivity|cbn; reflexivity|cbn; exact HG|cbn; discriminate]).
Qed.
Lemma crema_agrees (g : unet) (c1 c2 : ModelSolve.call) o1 o2 : In (c_model c1) ["crema"; "crema-sparse"]%string ->
  c_model c2 = c_model c1 -> c_method c2 = c_method c1 -> c_guess c2 = c_guess c1 -> 
  adjacency_agrees (u_set_adjacency g c1 o1) (u_set_adjacency g c2 o2) -> (snd (u_set_adjacency g c1 o1) = None -> c_out c2 = c_out c1) ->
  u_agrees (c_model c1) (u_solve_tool g c1 o1) (u_solve_tool g c2 o2).
Proof.
  intros HM E1 E2 E3 A E4. unfold u_solve_tool. rewrite E1. assert (B1 : among (c_model c1) ["cm"; "cm_exp"; "ecm"; "ecm_exp"]%string = false) by (destruct HM as [<-|[<-|[]]]; reflexivity).
  assert (B2 : among (c_model c1) ["crema"; "crema-sparse"]%string = true) by (destruct HM as [<-|[<-|[]]]; reflexivity). rewrite B1, B2. unfold u_solve_crema.
  rewrite E1, E2, E3. destruct (u_set_adjacency g c1 o1) as [p1 [e1|]], (u_set_adjacency g c2 o2) as [p2 [e2|]]; destruct A as [A1 A2]; cbn [fst snd] in A1, A2, E4; try discriminate.
  - injection A1 as <-. split; [reflexivity|discriminate].
  - specialize (A2 eq_refl). rewrite (E4 eq_refl). destruct A2 as (Q1 & Q2 & Q3 & Q4 & Q5). set (m' := if us_sparse p1 then "crema-sparse"%string else c_model c1).
    change (u_agrees (c_model c1) (andthen (andthen (u_initialize g m' (c_method c1) (c_guess c1) (us_set_last (Some m') p1)) (u_run_solver g (c_out c1))) (u_solution_error g))
      (andthen (let m2 := if us_sparse p2 then "crema-sparse"%string else c_model c1 in andthen (u_initialize g m2 (c_method c1) (c_guess c1) (us_set_last (Some m2) p2)) (u_run_solver g (c_out c1))) (u_solution_error g))).
    rewrite <- Q3. apply tail_agrees; try assumption. unfold m'. destruct (us_sparse p1); [right; left; reflexivity|exact HM].
Qed.

Lemma reuse_tool e (g : unet) t o b : In (t_model t) ["cm"; "cm_exp"; "ecm"; "ecm_exp"; "crema"; "crema-sparse"]%string -> u_untouched t o ->
  u_same_outcome (t_model t) (Run (u_tool e g t o) (u_report e g t o)) (Run (u_tool e g t (u_fresh b)) (u_report e g t (u_fresh b))).
Proof.
  intros HM [H1 H2]. assert (C : is_crema (t_model t) = false \/ In (t_model t) ["crema"; "crema-sparse"]%string) by (destruct HM as [<-|[<-|[<-|[<-|HM]]]]; [left; reflexivity..|right; exact HM]).
  destruct C as [C|C].
  - assert (ER : u_result e g t o = u_result e g t (u_fresh b)) by (unfold u_result; unfold is_crema in C; rewrite C; reflexivity).
    unfold u_report, u_tool, ModelTool.u_call. rewrite ER. set (c := u_call_adjacency e g t _). apply u_agrees_run; [|reflexivity].
    destruct HM as [HM|[HM|[HM|[HM|HM]]]].
    1,2: apply (cm_agrees g g c c o (u_fresh b)); try reflexivity; [change (c_model c) with (t_model t); rewrite <- HM; cbn; tauto|apply H1; rewrite <- HM; cbn; tauto].
    1,2: apply (ecm_agrees g c c o (u_fresh b)); try reflexivity; change (c_model c) with (t_model t); rewrite <- HM; cbn; tauto.
    destruct HM as [HM|[HM|[]]]; rewrite <- HM in C; discriminate.
  - specialize (H2 C).
    set (c1 := ModelTool.u_call e g t o). set (c2 := ModelTool.u_call e g t (u_fresh b)). set (c0 := u_call_adjacency e g t None).
    assert (A0 : adjacency_agrees (u_set_adjacency g c0 o) (u_set_adjacency g c0 (u_fresh b))).
    { apply adjacency_same; try reflexivity; cbn [c_adjacency c0 u_call_adjacency]; destruct (t_adjacency t); cbn; assumption || reflexivity || exact I. }
    assert (Z1 : u_set_adjacency g c1 o = u_set_adjacency g c0 o) by reflexivity. assert (Z2 : u_set_adjacency g c2 (u_fresh b) = u_set_adjacency g c0 (u_fresh b)) by reflexivity.
    assert (ER : snd (u_set_adjacency g c0 o) = None -> u_result e g t o = u_result e g t (u_fresh b)).
    { intros E. destruct A0 as [_ A0]. specialize (A0 E). destruct A0 as (Q1 & _ & Q3 & _). unfold u_result. rewrite (proj2 (among_in _ _) C). fold c0. rewrite Q1, Q3. reflexivity. }
    assert (K : u_agrees (t_model t) (u_solve_tool g c1 o) (u_solve_tool g c2 (u_fresh b))).
    { apply (crema_agrees g c1 c2 o (u_fresh b)); try reflexivity; [exact C|rewrite Z1, Z2; exact A0|]. rewrite Z1. intros E. cbn [c_out c1 c2 ModelTool.u_call u_call_adjacency]. rewrite (ER E). reflexivity. }
    apply u_agrees_run; [exact K|]. intros E. unfold u_report. rewrite ER; [reflexivity|]. unfold u_tool in E. fold c1 in E. unfold u_solve_tool, u_solve_crema in E. change (c_model c1) with (t_model t) in E.
    assert (B1 : among (t_model t) ["cm"; "cm_exp"; "ecm"; "ecm_exp"]%string = false) by (destruct C as [<-|[<-|[]]]; reflexivity). rewrite B1, (proj2 (among_in _ _) C), Z1 in E.
    unfold andthen in E at 1 2. destruct (u_set_adjacency g c0 o) as [p [ex|]]; [discriminate|reflexivity].
Qed.
(** The model cm does not read the strengths. *)
Lemma reuse_cm e (g1 g2 : unet) t o b : un_dseq g1 = un_dseq g2 -> In (t_model t) ["cm"; "cm_exp"]%string -> us_beta o = None ->
  u_same_outcome (t_model t) (Run (u_tool e g1 t o) (u_report e g1 t o)) (Run (u_tool e g2 t (u_fresh b)) (u_report e g2 t (u_fresh b))).
Proof.
  intros ED HM HB.
  assert (ES : forall rnd s, u_start g1 (t_model t) rnd s = u_start g2 (t_model t) rnd s).
  { intros. unfold u_start, u_length. rewrite ED. destruct HM as [<-|[<-|[]]]; reflexivity. }
  assert (EA : u_args g1 (t_model t) None = u_args g2 (t_model t) None).
  { unfold u_args, u_set_args. rewrite ED. destruct HM as [<-|[<-|[]]]; reflexivity. }
  assert (EL : u_length g1 (t_model t) = u_length g2 (t_model t)).
  { unfold u_length. rewrite ED. destruct HM as [<-|[<-|[]]]; reflexivity. }
  assert (ER : u_result e g1 t o = u_result e g2 t (u_fresh b)).
  { unfold u_result. assert (C : among (t_model t) ["crema"; "crema-sparse"]%string = false) by (destruct HM as [<-|[<-|[]]]; reflexivity). rewrite C. unfold u_solver. rewrite EL, EA, ES. reflexivity. }
  unfold u_report, u_tool, ModelTool.u_call. rewrite ER. apply u_agrees_run; [|reflexivity].
  apply (cm_agrees g1 g2 (u_call_adjacency e g1 t _) (u_call_adjacency e g2 t _) o (u_fresh b)); try reflexivity; try assumption. cbn [c_guess u_call_adjacency]. symmetry. apply ES.
Qed.
Lemma u_reuse_same (L : Type) (leb eqb : L -> L -> bool) e g o c f t : u_accepted c -> u_new leb eqb c = inl f ->
  In (t_model t) ["cm"; "cm_exp"; "ecm"; "ecm_exp"; "crema"; "crema-sparse"]%string -> u_untouched t o ->
  (~ In (t_model t) ["cm"; "cm_exp"]%string -> u_strength f <> None) ->
  exists g' o', u_reuse leb eqb g o c = inl (g', o') /\ u_same_outcome (t_model t) (u_object_tool e g' t o') (u_new_tool e f t).
Proof.
  intros Ha Hf HM HU HS. destruct (u_reuse_data L leb eqb g o c f Ha Hf) as (g' & o' & E & -> & ED & (d & EF) & K). exists g'. eexists. split; [exact E|].
  assert (HU' : u_untouched t (us_set_sparse (u_is_sparse g') o)) by (destruct HU; split; assumption).
  unfold u_new_tool, u_object_tool. rewrite ED, EF. destruct (naturals d) as [k|]; [|exact I].
  destruct (u_strength f) as [s|].
  - destruct K as (-> & -> & ->). cbn [listed andb]. apply reuse_tool; assumption.
  - assert (C : In (t_model t) ["cm"; "cm_exp"]%string).
    { destruct HM as [<-|[<-|HM]]; [cbn; tauto|cbn; tauto|]. exfalso. apply HS; [|reflexivity]. intros Q. destruct Q as [Q|[Q|[]]]; rewrite <- Q in HM; cbn in HM; intuition discriminate. }
    assert (B : reads_strengths (t_model t) = false) by (destruct C as [<-|[<-|[]]]; reflexivity). rewrite B, andb_false_r.
    destruct (u_strength g'); apply reuse_cm; try assumption; try reflexivity; apply (proj1 HU' C).
Qed.
