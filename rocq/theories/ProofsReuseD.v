(** A DirectedGraph reused for a second network. *)
From Coq Require Import Reals List Arith Bool ZArith String Lia Lra.
From Verif Require Import Base SpecGraph SpecEnsemble SpecNetwork SpecLife SpecSolve SpecTool
  ModelCM ModelECM ModelDCM ModelDECM ModelCReMa ModelNetwork ModelLife ModelSolver ModelDispatch ModelGuess ModelRun ModelSolve ModelTool ModelObject SpecObject ModelReuse SpecReuse.
From Verif Require Import ProofsNetwork ProofsLife ProofsLifeDir ProofsLifeForms ProofsSolve ProofsSolveU ProofsSolveD ProofsTool ProofsToolD ProofsObject.
Import ListNotations.
Local Open Scope R_scope.
#[local] Opaque u_dispatch d_dispatch lookup.

Definition d_carried {L} (g g' f : @dgraph L) : Prop :=
  d_dseq_out g' = d_dseq_out f /\ d_dseq_in g' = d_dseq_in f /\ d_deg_kind g' = d_deg_kind f /\
  match d_out_strength f, d_in_strength f with
  | Some so, Some si => d_out_strength g' = Some so /\ d_in_strength g' = Some si /\ d_str_kind g' = Numbers /\ d_str_kind f = Numbers /\ (d_index f <> None -> d_index g' = d_index f)
  | None, None => d_out_strength g' = d_out_strength g /\ d_in_strength g' = d_in_strength g /\ d_str_kind g' = d_str_kind g
  | _, _ => False
  end.
Lemma d_reuse_data (L : Type) (leb eqb : L -> L -> bool) g o c f : d_accepted c -> d_new leb eqb c = inl f ->
  exists g' o', d_reuse leb eqb g o c = inl (g', o') /\ o' = ds_set_sparse (d_is_sparse g') o /\ d_carried g g' f /\ (exists d, d_dseq_out f = Some d) /\ (exists d, d_dseq_in f = Some d).
Proof.
  intros Ha Hf. unfold d_reuse. set (g0 := fst (ModelLife.d_call leb eqb (d_flagged g (ds_sparse o)) CleanEdges)).
  assert (Z1 : d_out_strength g0 = d_out_strength g) by reflexivity. assert (Z4 : d_in_strength g0 = d_in_strength g) by reflexivity. assert (Z2 : d_str_kind g0 = d_str_kind g) by reflexivity. assert (Z3 : d_is_initialized g0 = false) by reflexivity.
  clearbody g0. unfold d_new in Hf. unfold d_carried.
  assert (KM : forall k sp n a f', d_from_matrix (@d_blank L) k sp n a = (f', None) -> exists g', d_from_matrix g0 k sp n a = (g', None) /\ d_carried g g' f' /\ (exists d, d_dseq_out f' = Some d) /\ (exists d, d_dseq_in f' = Some d)).
  { intros k sp n a f'. unfold d_from_matrix, d_carried. destruct (has_negative n a); [discriminate|]. destruct (in_degree k n a) as [ki|]; [|discriminate]. destruct (out_degree k n a) as [ko|]; [|discriminate].
    destruct (Req_EM_T _ _).
    - intros [= <-]. eexists. split; [reflexivity|]. cbn. repeat split; try assumption; eexists; reflexivity.
    - destruct (in_strength k n a) as [si|]; [|discriminate]. destruct (out_strength k n a) as [so|]; [|discriminate]. intros [= <-]. eexists. split; [reflexivity|]. cbn. repeat split; eexists; reflexivity. }
  destruct c as [a|e|s|]; [| | |contradiction].
  - destruct a as [|n a|k stored n a|n a|]; try contradiction; unfold d_construct in Hf; cbn [ModelLife.d_initialize d_init_adjacency ModelLife.d_call] in Hf |- *; rewrite Z3; cbn [d_accepted u_accepted] in Ha.
    + destruct Ha as [Hn Ha]. rewrite (proj2 (Nat.ltb_lt 0 (n * n)) ltac:(nia)) in Hf |- *. destruct (d_from_matrix d_blank Ndarray false n a) as [f' [ex|]] eqn:E; [discriminate|].
      destruct (KM Ndarray false n a f' E) as (g' & E' & H). injection Hf as <-. rewrite E'. exists g'. eexists. split; [reflexivity|]. split; [reflexivity|]. exact H.
    + destruct Ha as (Hk & Hs & Ha). rewrite (proj2 (Nat.ltb_lt 0 stored) Hs) in Hf |- *. destruct (d_from_matrix d_blank k true n a) as [f' [ex|]] eqn:E; [discriminate|].
      destruct (KM k true n a f' E) as (g' & E' & H). injection Hf as <-. rewrite E'. exists g'. eexists. split; [reflexivity|]. split; [reflexivity|]. exact H.
  - destruct e as [|es|es| |]; try contradiction; (destruct es as [|e0 es]; [contradiction Ha; reflexivity|]);
      unfold d_construct in Hf; cbn [ModelLife.d_initialize d_init_edges ModelLife.d_call] in Hf |- *; rewrite Z3.
    + destruct (edgelist_from_edgelist_directed leb eqb (e0 :: es)) as [[[[es' dout] din] nodes]|]; [|discriminate].
      injection Hf as <-. eexists. eexists. split; [reflexivity|]. split; [reflexivity|]. cbn. repeat split; try assumption; eexists; reflexivity.
    + destruct (edgelist_from_edgelist_directed_w leb eqb (e0 :: es)) as [[[[[[es' dout] din] sout] sin] nodes]|]; [|discriminate].
      injection Hf as <-. eexists. eexists. split; [reflexivity|]. split; [reflexivity|]. cbn. repeat split; try (eexists; reflexivity). intros Q. contradiction Q; reflexivity.
  - destruct s as [|v|v| |]; try contradiction; destruct Ha as (Hv & Hp & He); (destruct v as [|r v]; [contradiction Hv; reflexivity|]);
      unfold d_construct in Hf; cbn [ModelLife.d_initialize d_init_degrees ModelLife.d_call] in Hf |- *; rewrite Z3; rewrite (proj2 (list_has_negative_spec _) Hp) in Hf |- *;
      (destruct (negb (Nat.eqb (Datatypes.length (r :: v) mod 2) 0)); [discriminate|]); cbn [d_init_strengths] in Hf |- *;
      injection Hf as <-; eexists; eexists; (split; [reflexivity|]); (split; [reflexivity|]); cbn; repeat split; try assumption; eexists; reflexivity.
Qed.

Definition d_agrees (m : string) (a b : ran dstate) : Prop :=
  snd a = snd b /\ (snd a = None -> d_parameters m (fst a) = d_parameters m (fst b) /\ ds_err (fst a) = ds_err (fst b) /\ ds_last (fst a) = ds_last (fst b) /\
    ds_sol (fst a) = ds_sol (fst b) /\ ds_step (fst a) = ds_step (fst b) /\
    (m = "crema"%string \/ m = "crema-sparse"%string -> ds_adj (fst a) = ds_adj (fst b) /\ ds_given (fst a) = ds_given (fst b) /\ ds_sparse (fst a) = ds_sparse (fst b))).
Lemma d_agrees_run m a b r1 r2 : d_agrees m a b -> (snd a = None -> r1 = r2) -> d_same_outcome m (Run a r1) (Run b r2).
Proof. intros [H1 H2] Hr. destruct a as [o1 e1], b as [o2 e2]. cbn in *. split; [exact H1|]. intros E. specialize (H2 E). split; [apply Hr; exact E|exact H2]. Qed.
#[local] Opaque inf_norm expected_out_degree_dcm expected_in_degree_dcm expected_decm drop join2 join4 at_list expected_out_strength_crema_directed_sparse expected_in_stregth_crema_directed_sparse
  expected_out_strength_crema_directed expected_in_strength_crema_directed adj_edges adj1 degree_reduction_dir.
Ltac finish_agree := unfold d_agrees, d_parameters; cbn; split; [reflexivity|]; first [discriminate | intros _; repeat (split; [reflexivity|]); intros [Q|Q]; discriminate Q].
Lemma dcm_agrees (g1 g2 : dnet) (c1 c2 : ModelSolve.call) o1 o2 : dn_out g1 = dn_out g2 -> dn_in g1 = dn_in g2 -> In (c_model c1) ["dcm"; "dcm_exp"]%string ->
  c_model c2 = c_model c1 -> c_method c2 = c_method c1 -> c_full c2 = c_full c1 -> c_guess c2 = c_guess c1 -> c_out c2 = c_out c1 -> ds_bo o1 = None -> ds_bo o2 = None ->
  d_agrees (c_model c1) (d_solve_tool g1 c1 o1) (d_solve_tool g2 c2 o2).
Proof.
  intros ED ED' HM E1 E2 E5 E3 E4 B1 B2. unfold d_solve_tool. rewrite E1, E2, E3, E4, E5. destruct g1 as [k h s1 r1], g2 as [k' h' s2 r2]. cbn in ED, ED'. subst k' h'. destruct o1, o2. cbn in B1, B2. subst.
  unfold d_solve_problem, d_initialize, d_set_guess, d_set_args, d_run_solver, d_set_solved, d_set_solved_dcm, dn_n. cbn [dn_out dn_in].
  destruct HM as [<-|[<-|[]]]; cbn [among existsb String.eqb Ascii.eqb Bool.eqb orb]; (destruct (c_guess c1) as [v|]; [|finish_agree]); cbn [andthen ok fst snd];
    (destruct (d_dispatch _ _ None) as [D|[|]]; [|finish_agree|finish_agree]); cbn [andthen ok fst snd]; (destruct (c_out c1) as [w|]; [|finish_agree]); finish_agree.
Qed.
Lemma decm_agrees (g : dnet) (c1 c2 : ModelSolve.call) o1 o2 : In (c_model c1) ["decm"; "decm_exp"]%string ->
  c_model c2 = c_model c1 -> c_method c2 = c_method c1 -> c_full c2 = c_full c1 -> c_guess c2 = c_guess c1 -> c_out c2 = c_out c1 ->
  d_agrees (c_model c1) (d_solve_tool g c1 o1) (d_solve_tool g c2 o2).
Proof.
  intros HM E1 E2 E5 E3 E4. unfold d_solve_tool. rewrite E1, E2, E3, E4, E5. destruct o1, o2.
  unfold d_solve_problem, d_initialize, d_set_guess, d_set_args, d_run_solver, d_set_solved, d_set_solved_decm, dn_n.
  destruct HM as [<-|[<-|[]]]; cbn [among existsb String.eqb Ascii.eqb Bool.eqb orb]; (destruct (c_guess c1) as [v|]; [|finish_agree]); cbn [andthen ok fst snd];
    (destruct (d_dispatch _ _ None) as [D|[|]]; [|finish_agree|finish_agree]); cbn [andthen ok fst snd]; (destruct (c_out c1) as [w|]; [|finish_agree]); finish_agree.
Qed.
(** CReMa: the adjacency first. *)
Definition fresh_adjacency (t : adjacency_arg) (old : option (nat -> R)) (names : list string) : Prop :=
  match t with AdjName a => In a names | AdjMatrix _ => old = None | AdjOther => True end.
(** Either both have degree factors, the same ones, or the adjacency was given. *)
Definition same_factors (p q : dstate) : Prop :=
  (ds_x p = ds_x q /\ ds_y p = ds_y q /\ ds_x p <> None /\ ds_y p <> None) \/ (ds_x p = None /\ ds_x q = None /\ ds_given p = Some true).
Definition adjacency_agrees (a b : ran dstate) : Prop :=
  snd a = snd b /\ (snd a = None -> ds_adj (fst a) = ds_adj (fst b) /\ ds_given (fst a) = ds_given (fst b) /\ ds_sparse (fst a) = ds_sparse (fst b) /\ same_factors (fst a) (fst b)).
#[local] Opaque all_edges pmatrix_dcm np_nonzero.
Ltac fail_agree := unfold adjacency_agrees; cbn; split; [reflexivity|discriminate].
Lemma adjacency_same (g : dnet) (c1 c2 : ModelSolve.call) o1 o2 : c_model c2 = c_model c1 -> c_full c2 = c_full c1 -> c_adjacency c2 = c_adjacency c1 -> c_method_adjacency c2 = c_method_adjacency c1 ->
  c_guess_adjacency c2 = c_guess_adjacency c1 -> c_out_adjacency c2 = c_out_adjacency c1 ->
  fresh_adjacency (c_adjacency c1) (ds_x o1) ["dcm"; "dcm_exp"]%string -> fresh_adjacency (c_adjacency c1) (ds_x o2) ["dcm"; "dcm_exp"]%string ->
  adjacency_agrees (d_set_adjacency g c1 o1) (d_set_adjacency g c2 o2).
Proof.
  intros E1 E6 E2 E3 E4 E5 F1 F2. unfold d_set_adjacency. rewrite E1, E2, E3, E4, E5, E6. destruct (c_adjacency c1) as [a|a|].
  - cbn in F1. destruct o1, o2.
    unfold d_solve_problem, d_initialize, d_set_guess, d_set_args, d_run_solver, d_set_solved, d_set_solved_dcm, dn_n.
    destruct F1 as [<-|[<-|[]]]; cbn [among existsb String.eqb Ascii.eqb Bool.eqb orb]; (destruct (c_guess_adjacency c1) as [v|]; [|fail_agree]); cbn [andthen ok fst snd];
      (destruct (d_dispatch _ _ None) as [D|[|]]; [|fail_agree|fail_agree]); cbn [andthen ok fst snd];
      (destruct (c_out_adjacency c1) as [w|]; [|fail_agree]); generalize (String.eqb (c_model c1) "crema-sparse"); intros [|]; unfold adjacency_agrees, same_factors; cbn;
      (split; [reflexivity|]); intros _; do 3 (split; [reflexivity|]); left; (split; [reflexivity|split; [reflexivity|split; discriminate]]).
  - cbn in F1, F2. unfold adjacency_agrees, same_factors. cbn. rewrite F1, F2. split; [reflexivity|]. intros _. do 3 (split; [reflexivity|]). right. repeat split; reflexivity.
  - split; [reflexivity|discriminate].
Qed.
Lemma error_agrees (g : dnet) (m m' : string) p q : In m ["crema"; "crema-sparse"]%string -> In m' ["crema"; "crema-sparse"]%string -> ds_last p = Some m' -> ds_last q = Some m' -> ds_bo p = ds_bo q -> ds_bi p = ds_bi q -> ds_adj p = ds_adj q -> ds_given p = ds_given q ->
  ds_sparse p = ds_sparse q -> ds_sol p = ds_sol q -> ds_step p = ds_step q -> same_factors p q -> ds_bo p <> None -> ds_bi p <> None ->
  d_agrees m (d_solution_error g p) (d_solution_error g q).
Proof.
  intros HM HM' L1 L2. unfold d_solution_error. rewrite L1, L2. assert (B : among m' ["dcm_exp"; "dcm"; "crema"; "crema-sparse"]%string = true) by (destruct HM' as [<-|[<-|[]]]; reflexivity). rewrite B.
  assert (PE : forall o, d_parameters m o = [ds_bo o; ds_bi o]) by (intros o; destruct HM as [<-|[<-|[]]]; reflexivity).
  unfold d_agrees. rewrite !PE. destruct p as [x1 y1 bo1 bi1 a1 gv1 s1 l1 ar1 st1 pm1 so1 ek1 es1 er1], q as [x2 y2 bo2 bi2 a2 gv2 s2 l2 ar2 st2 pm2 so2 ek2 es2 er2]. cbn in L1, L2 |- *.
  intros <- <- <- <- <- <- <- HG HB HB'. subst l1 l2. clear PE B. unfold d_error_strength, d_error_degree. cbn [ds_x ds_y]. set (n := dn_n g).
  set (ex := fun a sol => if s1 then obind (adj1 a) (fun y => obind (expected_out_strength_crema_directed_sparse n (adj0 a) y sol) (fun eo => obind (expected_in_stregth_crema_directed_sparse n (adj0 a) y sol) (fun ei => Some (join2 n eo ei))))
     else obind (adj_edges a) (fun es => obind (expected_out_strength_crema_directed n es sol) (fun eo => obind (expected_in_strength_crema_directed n es sol) (fun ei => Some (join2 n eo ei))))).
  destruct bo1 as [bo|]; [|contradiction HB; reflexivity]. destruct bi1 as [bi|]; [|contradiction HB'; reflexivity].
  destruct HG as [(Q1 & Q2 & Q3 & Q4)|(Q1 & Q2 & Q3)]; cbn in Q1, Q2, Q3.
  - subst x2 y2. cbn in Q4. destruct x1 as [x|]; [|contradiction Q3; reflexivity]. destruct y1 as [y|]; [|contradiction Q4; reflexivity]. cbn [ds_bo ds_bi ds_adj ds_set_ek ds_sparse].
    destruct a1 as [a|]; [|split; [reflexivity|discriminate]]. change (if s1 then _ else _) with (ex a (join2 n bo bi)).
    destruct (ex a _) as [v|]; [|split; [reflexivity|discriminate]]. cbn [ds_given ds_set_es ds_ek ds_set_ek]. destruct gv1 as [[|]|]; [repeat split|repeat split|split; [reflexivity|discriminate]].
  - subst x1 x2 gv1. cbn [ds_bo ds_bi ds_adj ds_set_ek ds_sparse].
    destruct a1 as [a|]; [|split; [reflexivity|discriminate]]. change (if s1 then _ else _) with (ex a (join2 n bo bi)).
    destruct (ex a _) as [v|]; [|split; [reflexivity|discriminate]]. repeat split.
Qed.
Lemma tail_agrees (g : dnet) (m m' meth : string) full guess out p q : In m ["crema"; "crema-sparse"]%string -> In m' ["crema"; "crema-sparse"]%string -> ds_adj p = ds_adj q -> ds_given p = ds_given q ->
  ds_sparse p = ds_sparse q -> same_factors p q ->
  d_agrees m (andthen (andthen (d_initialize g m' meth guess (ds_set_last (Some m') p)) (fun o => match out with None => raising o ESolver | Some v => ok (d_set_solved_crema g full v o) end)) (d_solution_error g))
             (andthen (andthen (d_initialize g m' meth guess (ds_set_last (Some m') q)) (fun o => match out with None => raising o ESolver | Some v => ok (d_set_solved_crema g full v o) end)) (d_solution_error g)).
Proof.
  intros HM HM' A1 A2 A3 HG. destruct p as [x1 y1 bo1 bi1 a1 gv1 s1 l1 ar1 st1 pm1 so1 ek1 es1 er1], q as [x2 y2 bo2 bi2 a2 gv2 s2 l2 ar2 st2 pm2 so2 ek2 es2 er2]. unfold same_factors in HG. cbn in A1, A2, A3, HG. subst a2 gv2 s2.
  unfold d_initialize, d_set_guess, d_set_args, d_set_solved_crema.
  pose proof HM' as HM2. unfold ds_set_last. cbn [ds_x ds_y ds_bo ds_bi ds_adj ds_given ds_sparse ds_last ds_args ds_step ds_pm ds_sol ds_ek ds_es ds_err].
  destruct HM' as [<-|[<-|[]]]; cbn [among existsb String.eqb Ascii.eqb Bool.eqb orb]; (destruct guess as [v|]; [|split; [reflexivity|discriminate]]); cbn [andthen ok fst snd ds_adj ds_set_b];
    (destruct a1 as [adj|]; [|split; [reflexivity|discriminate]]); cbn [andthen ok fst snd];
    (destruct (d_dispatch _ _ None) as [D|[|]]; [|split; [reflexivity|discriminate]|split; [reflexivity|discriminate]]); cbn [andthen ok fst snd];
    (destruct out as [w|]; [|split; [reflexivity|discriminate]]); cbn [andthen ok fst snd];
    (eapply error_agrees; [exact HM|exact HM2|cbn; reflexivity..|unfold same_factors; cbn; exact HG|cbn; discriminate|cbn; discriminate]).
Qed.
Lemma crema_agrees (g : dnet) (c1 c2 : ModelSolve.call) o1 o2 : In (c_model c1) ["crema"; "crema-sparse"]%string ->
  c_model c2 = c_model c1 -> c_method c2 = c_method c1 -> c_full c2 = c_full c1 -> c_guess c2 = c_guess c1 -> 
  adjacency_agrees (d_set_adjacency g c1 o1) (d_set_adjacency g c2 o2) -> (snd (d_set_adjacency g c1 o1) = None -> c_out c2 = c_out c1) ->
  d_agrees (c_model c1) (d_solve_tool g c1 o1) (d_solve_tool g c2 o2).
Proof.
  intros HM E1 E2 E5 E3 A E4. unfold d_solve_tool. rewrite E1. assert (B1 : among (c_model c1) ["dcm"; "dcm_exp"; "decm"; "decm_exp"]%string = false) by (destruct HM as [<-|[<-|[]]]; reflexivity).
  assert (B2 : among (c_model c1) ["crema"; "crema-sparse"]%string = true) by (destruct HM as [<-|[<-|[]]]; reflexivity). rewrite B1, B2. unfold d_solve_crema.
  rewrite E1, E2, E3, E5. destruct (d_set_adjacency g c1 o1) as [p1 [e1|]], (d_set_adjacency g c2 o2) as [p2 [e2|]]; destruct A as [A1 A2]; cbn [fst snd] in A1, A2, E4; try discriminate.
  - injection A1 as <-. split; [reflexivity|discriminate].
  - specialize (A2 eq_refl). rewrite (E4 eq_refl). destruct A2 as (Q1 & Q2 & Q3 & Q4). set (m' := if ds_sparse p1 then "crema-sparse"%string else c_model c1).
    change (d_agrees (c_model c1) (andthen (andthen (d_initialize g m' (c_method c1) (c_guess c1) (ds_set_last (Some m') p1)) (fun o => match c_out c1 with None => raising o ESolver | Some v => ok (d_set_solved_crema g (c_full c1) v o) end)) (d_solution_error g))
      (andthen (let m2 := if ds_sparse p2 then "crema-sparse"%string else c_model c1 in andthen (d_initialize g m2 (c_method c1) (c_guess c1) (ds_set_last (Some m2) p2)) (fun o => match c_out c1 with None => raising o ESolver | Some v => ok (d_set_solved_crema g (c_full c1) v o) end)) (d_solution_error g))).
    rewrite <- Q3. apply tail_agrees; try assumption. unfold m'. destruct (ds_sparse p1); [right; left; reflexivity|exact HM].
Qed.

Lemma reuse_tool e (g : dnet) nz t o b : In (t_model t) ["dcm"; "dcm_exp"; "decm"; "decm_exp"; "crema"; "crema-sparse"]%string -> d_untouched t o ->
  d_same_outcome (t_model t) (Run (d_tool_index e g nz t o) (report_of (d_result_index e g nz t o))) (Run (d_tool_index e g nz t (d_fresh b)) (report_of (d_result_index e g nz t (d_fresh b)))).
Proof.
  intros HM [H1 H2]. assert (C : is_crema (t_model t) = false \/ In (t_model t) ["crema"; "crema-sparse"]%string) by (destruct HM as [<-|[<-|[<-|[<-|HM]]]]; [left; reflexivity..|right; exact HM]).
  destruct C as [C|C].
  - assert (ER : d_result_index e g nz t o = d_result_index e g nz t (d_fresh b)) by (unfold d_result_index, d_result; rewrite C; unfold is_crema in C; rewrite C; reflexivity).
    unfold d_tool_index. rewrite ER. set (c := d_call_adjacency e g t _). apply d_agrees_run; [|reflexivity].
    destruct HM as [HM|[HM|[HM|[HM|HM]]]].
    1,2: apply (dcm_agrees g g c c o (d_fresh b)); try reflexivity; [change (c_model c) with (t_model t); rewrite <- HM; cbn; tauto|apply H1; rewrite <- HM; cbn; tauto].
    1,2: apply (decm_agrees g c c o (d_fresh b)); try reflexivity; change (c_model c) with (t_model t); rewrite <- HM; cbn; tauto.
    destruct HM as [HM|[HM|[]]]; rewrite <- HM in C; discriminate.
  - specialize (H2 C).
    set (c1 := d_call_adjacency e g t (solved_of (d_result_index e g nz t o))). set (c2 := d_call_adjacency e g t (solved_of (d_result_index e g nz t (d_fresh b)))). set (c0 := d_call_adjacency e g t None).
    assert (A0 : adjacency_agrees (d_set_adjacency g c0 o) (d_set_adjacency g c0 (d_fresh b))).
    { apply adjacency_same; try reflexivity; cbn [c_adjacency c0 d_call_adjacency]; destruct (t_adjacency t); cbn; assumption || reflexivity || exact I. }
    assert (Z1 : d_set_adjacency g c1 o = d_set_adjacency g c0 o) by reflexivity. assert (Z2 : d_set_adjacency g c2 (d_fresh b) = d_set_adjacency g c0 (d_fresh b)) by reflexivity.
    assert (ER : snd (d_set_adjacency g c0 o) = None -> d_result_index e g nz t o = d_result_index e g nz t (d_fresh b)).
    { intros E. destruct A0 as [_ A0]. specialize (A0 E). destruct A0 as (Q1 & _ & Q3 & _). unfold d_result_index. unfold is_crema. rewrite (proj2 (among_in _ _) C). fold c0. rewrite Q1, Q3. reflexivity. }
    assert (K : d_agrees (t_model t) (d_solve_tool g c1 o) (d_solve_tool g c2 (d_fresh b))).
    { apply (crema_agrees g c1 c2 o (d_fresh b)); try reflexivity; [exact C|rewrite Z1, Z2; exact A0|]. rewrite Z1. intros E. cbn [c_out c1 c2 d_call_adjacency]. rewrite (ER E). reflexivity. }
    apply d_agrees_run; [exact K|]. intros E. rewrite ER; [reflexivity|]. unfold d_tool_index in E. fold c1 in E. unfold d_solve_tool, d_solve_crema in E. change (c_model c1) with (t_model t) in E.
    assert (B1 : among (t_model t) ["dcm"; "dcm_exp"; "decm"; "decm_exp"]%string = false) by (destruct C as [<-|[<-|[]]]; reflexivity). rewrite B1, (proj2 (among_in _ _) C), Z1 in E.
    unfold andthen in E at 1 2. destruct (d_set_adjacency g c0 o) as [p [ex|]]; [discriminate|reflexivity].
Qed.
(** The model dcm reads neither strengths nor their index arrays. *)
Lemma reuse_dcm e (g1 g2 : dnet) nz1 nz2 t o b : dn_out g1 = dn_out g2 -> dn_in g1 = dn_in g2 -> In (t_model t) ["dcm"; "dcm_exp"]%string -> ds_bo o = None ->
  d_same_outcome (t_model t) (Run (d_tool_index e g1 nz1 t o) (report_of (d_result_index e g1 nz1 t o))) (Run (d_tool_index e g2 nz2 t (d_fresh b)) (report_of (d_result_index e g2 nz2 t (d_fresh b)))).
Proof.
  intros ED ED' HM HB.
  assert (ES : forall rnd s, d_start g1 (t_model t) rnd s = d_start g2 (t_model t) rnd s).
  { intros. unfold d_start, d_length. rewrite ED, ED'. destruct HM as [<-|[<-|[]]]; reflexivity. }
  assert (EA : d_args g1 (t_model t) None = d_args g2 (t_model t) None).
  { unfold d_args, d_set_args. rewrite ED, ED'. destruct HM as [<-|[<-|[]]]; reflexivity. }
  assert (EL : d_length g1 (t_model t) = d_length g2 (t_model t)).
  { unfold d_length. rewrite ED, ED'. destruct HM as [<-|[<-|[]]]; reflexivity. }
  assert (ER : d_result_index e g1 nz1 t o = d_result_index e g2 nz2 t (d_fresh b)).
  { unfold d_result_index, d_result, is_crema. assert (C : among (t_model t) ["crema"; "crema-sparse"]%string = false) by (destruct HM as [<-|[<-|[]]]; reflexivity). rewrite C. unfold d_solver. rewrite EL, EA, ES. reflexivity. }
  unfold d_tool_index. rewrite ER. apply d_agrees_run; [|reflexivity].
  apply (dcm_agrees g1 g2 (d_call_adjacency e g1 t _) (d_call_adjacency e g2 t _) o (d_fresh b)); try reflexivity; try assumption. cbn [c_guess d_call_adjacency]. symmetry. apply ES.
Qed.
Lemma decm_refused e g t o b : In (t_model t) ["decm"; "decm_exp"]%string ->
  d_same_outcome (t_model t) (Run (d_solve_tool g (d_call_adjacency e g t None) o) None) (Run (d_solve_tool g (d_call_adjacency e g t None) (d_fresh b)) None).
Proof. intros HM. apply d_agrees_run; [|reflexivity]. apply (decm_agrees g (d_call_adjacency e g t None) (d_call_adjacency e g t None)); try reflexivity. exact HM. Qed.
Lemma d_reuse_same (L : Type) (leb eqb : L -> L -> bool) e g o c f t : d_accepted c -> d_new leb eqb c = inl f ->
  In (t_model t) ["dcm"; "dcm_exp"; "decm"; "decm_exp"; "crema"; "crema-sparse"]%string -> d_untouched t o ->
  (In (t_model t) ["decm"; "decm_exp"]%string -> d_out_strength f <> None) ->
  (In (t_model t) ["crema"; "crema-sparse"]%string -> d_out_strength f <> None /\ d_nz_sout f <> None /\ d_nz_sin f <> None) ->
  exists g' o', d_reuse leb eqb g o c = inl (g', o') /\ d_same_outcome (t_model t) (d_object_tool e g' t o') (d_new_tool e f t).
Proof.
  intros Ha Hf HM HU HS HI. destruct (d_reuse_data L leb eqb g o c f Ha Hf) as (g' & o' & E & -> & (EO & EI & EK & K) & (ko & EF) & (ki & EF')). exists g'. eexists. split; [exact E|].
  assert (HU' : d_untouched t (ds_set_sparse (d_is_sparse g') o)) by (destruct HU; split; assumption).
  unfold d_new_tool, d_object_tool. rewrite EO, EI, EF, EF'. destruct (naturals ko) as [k|]; [|exact I]. destruct (naturals ki) as [k'|]; [|exact I].
  assert (D : In (t_model t) ["dcm"; "dcm_exp"]%string \/ In (t_model t) ["decm"; "decm_exp"]%string \/ In (t_model t) ["crema"; "crema-sparse"]%string) by (cbn in HM |- *; tauto).
  destruct D as [C|C].
  - assert (B : reads_strengths (t_model t) = false) by (destruct C as [<-|[<-|[]]]; reflexivity). assert (B' : reads_degrees (t_model t) = false) by (destruct C as [<-|[<-|[]]]; reflexivity).
    rewrite B, B', !andb_false_r. destruct (d_out_strength g'), (d_in_strength g'), (d_out_strength f), (d_in_strength f); apply reuse_dcm; try assumption; try reflexivity; apply (proj1 HU' C).
  - destruct (d_out_strength f) as [so|] eqn:ESO; [|exfalso; destruct C as [C|C]; [apply (HS C); reflexivity|apply (proj1 (HI C)); reflexivity]].
    destruct (d_in_strength f) as [si|]; [|contradiction]. destruct K as (-> & -> & -> & -> & KI). cbn [listed andb]. destruct C as [C|C].
    + assert (B : reads_degrees (t_model t) = true) by (destruct C as [<-|[<-|[]]]; reflexivity). rewrite B, EK.
      assert (NC : is_crema (t_model t) = false) by (destruct C as [<-|[<-|[]]]; reflexivity).
      destruct (d_deg_kind f); [|apply decm_refused; exact C|exact I].
      set (net := {| dn_out := k; dn_in := k'; dn_sout := at_reals so; dn_sin := at_reals si |}).
      unfold d_tool_index. rewrite !(d_result_noindex e net (d_index g') (d_index f) t) by exact NC. apply (reuse_tool e net (d_index f) t); assumption.
    + assert (B : reads_degrees (t_model t) = false) by (destruct C as [<-|[<-|[]]]; reflexivity). rewrite B. destruct (HI C) as (_ & I1 & I2).
      rewrite KI; [apply reuse_tool; assumption|]. unfold d_index. destruct (d_nz_sout f); [|contradiction I1; reflexivity]. destruct (d_nz_sin f); [discriminate|contradiction I2; reflexivity].
Qed.
