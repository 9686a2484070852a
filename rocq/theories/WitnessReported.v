(** Concrete calls of [solve_tool] followed by [ensemble_sampler]; where what was reported is
    not what is drawn. *)
From Coq Require Import Reals List Arith Bool ZArith Permutation String Lia Lra.
From Verif Require Import Base SpecDeriv SpecGraph SpecDirected SpecWeighted SpecCReMa SpecEnsemble SpecNetwork SpecSolve SpecDispatch
  ModelCM ModelECM ModelDCM ModelDECM ModelCReMa ModelNetwork ModelDispatch ModelSolve ModelSampler SpecSampler SpecSamples ModelSample SpecReported
  ProofsGraph ProofsEnsemble ProofsMainCReMa ProofsDispatch ProofsSolve ProofsSolveU ProofsSolveD ProofsSampler ProofsSamples ProofsReported ProofsReportedD ProofsMeans
  WitnessSampler WitnessSamples WitnessSolve.
Import ListNotations.
Local Open Scope R_scope.

(** All the tasks on one worker, in order. *)
Definition in_order (m : nat) : pool_choice gen0 := {| the_schedule := map (fun t => (t, O)) (seq 0 m); the_workers := fun _ => start0 |}.
Lemma in_order_valid m : valid_choice gen0 1 m (in_order m).
Proof.
  split; [lia|]. split.
  - cbn. rewrite map_map. cbn. rewrite map_id. apply Permutation_refl.
  - intros t w. cbn. rewrite in_map_iff. intros (x & E & _). injection E as <- <-. lia.
Qed.
Notation ordered m := (fun _ : nat => in_order m).
Lemma ordered_valid m t : valid_choice gen0 1 m (ordered m t).
Proof. apply in_order_valid. Qed.
Lemma draws_case : numpy_contract gen0 /\ top_seed gen0 (Some 7%Z) start0 = Some start0 /\ forall m t, valid_choice gen0 1 m (ordered m t).
Proof. split; [apply inv_gen_contract|]. split; [reflexivity|]. intros. apply in_order_valid. Qed.

(** * Hypotheses of the theorems *)
Definition path3 : unet := {| un_dseq := [1; 2; 1]%nat; un_str := fun i => nth i [2; 5; 3] 0 |}.
Definition two_values (i : nat) : R := nth i [1 / 2; 3] 1.
Lemma reported_cm_case : exists c o', (0 < un_n path3)%nat /\ us_beta (u_fresh false) = None /\ In (c_model c) ["cm"; "cm_exp"]%string /\
  u_solve_tool path3 c (u_fresh false) = (o', None) /\
  (forall x, us_x o' = Some x -> c_model c = "cm"%string -> forall i j, (i < j < un_n path3)%nat -> 0 <= x i * x j).
Proof.
  destruct (u_completes path3 (call_of "cm" "newton" AdjOther two_values two_values) (u_fresh false) two_values (vec two_values)) as (o' & H);
    [cbn; tauto|cbn; tauto|reflexivity|reflexivity|reflexivity|].
  exists (call_of "cm" "newton" AdjOther two_values two_values), o'. split; [cbn; lia|]. split; [reflexivity|]. split; [cbn; tauto|]. split; [exact H|].
  
  destruct (u_error_cm path3 (call_of "cm" "newton" AdjOther two_values two_values) (u_fresh false) o') as (v & cls & x0 & e & V & X & _ & _ & XV & _);
    [cbn; lia|reflexivity|cbn; tauto|exact H|].
  intros x X' _ i j _. rewrite X in X'. injection X' as <-. rewrite !XV. injection V as <-. cbn.
  assert (P : forall q, 0 <= two_values q) by (intros [|[|[|q]]]; unfold two_values; cbn; lra). apply Rmult_le_pos; apply P.
Qed.
Definition ecm_values (i : nat) : R := nth i [1; 2; 1; 1 / 2; 1 / 3; 1 / 2] 0.
Lemma reported_ecm_case : exists c o', (0 < un_n path3)%nat /\ In (c_model c) ["ecm"; "ecm_exp"]%string /\
  u_solve_tool path3 c (u_fresh false) = (o', None) /\
  (forall x y, us_x o' = Some x -> us_y o' = Some y -> forall i j, (i < j < un_n path3)%nat ->
     (c_model c = "ecm"%string -> 0 <= x i * x j /\ 0 <= y i * y j) /\ y i * y j < 1).
Proof.
  set (c := call_of "ecm" "newton" AdjOther ecm_values ecm_values).
  destruct (u_completes path3 c (u_fresh false) ecm_values (vec ecm_values)) as (o' & H);
    [cbn; tauto|cbn; tauto|cbn; intros [E|[E|[]]]; discriminate E|reflexivity|reflexivity|].
  exists c, o'. split; [cbn; lia|]. split; [cbn; tauto|]. split; [exact H|]. 
  destruct (u_error_ecm path3 c (u_fresh false) o') as (v & x0 & y0 & ek & es & V & X & Y & _ & HX & HY & _); [cbn; lia|cbn; tauto|exact H|].
  injection V as <-. cbn in HX, HY. intros x y X' Y' i j Hij. rewrite X in X'. rewrite Y in Y'. injection X' as <-. injection Y' as <-.
  rewrite !HX, !HY. apply below3 in Hij. destruct Hij as [E|[E|E]]; injection E as -> ->; cbn; unfold ecm_values; cbn; lra.
Qed.
Definition path01 (i j : nat) : R := if Nat.eqb (i + 1) j || Nat.eqb (j + 1) i then 1 else 0.
Lemma path01_hollow : hollow path01.
Proof. intros i. unfold path01. destruct (Nat.eqb_spec (i + 1) i); [lia|reflexivity]. Qed.
Definition rates3 (i : nat) : R := nth i [1; 2; 3] 1.
Lemma rates3_pos i : 0 < rates3 i.
Proof. destruct i as [|[|[|[|i]]]]; unfold rates3; cbn; lra. Qed.
Lemma reported_crema_given_case : exists c o', (0 < un_n path3)%nat /\ c_model c = "crema"%string /\ c_adjacency c = AdjMatrix path01 /\ hollow path01 /\
  (forall i j, (i < j < un_n path3)%nat -> path01 i j = 0 \/ path01 i j = 1) /\ u_solve_tool path3 c (u_fresh false) = (o', None) /\
  (forall b, us_beta o' = Some b -> positive_rates (un_n path3) path01 b).
Proof.
  set (c := call_of "crema" "newton" (AdjMatrix path01) rates3 rates3).
  assert (R3 : positive_rates (un_n path3) path01 rates3) by (intros i j _ _; pose proof (rates3_pos i); pose proof (rates3_pos j); lra).
  destruct (u_completes_crema path3 c (u_fresh false) path01 rates3 (vec rates3) eq_refl) as (o' & H);
    [cbn; tauto|reflexivity|exact path01_hollow|reflexivity|reflexivity|exact R3|].
  exists c, o'. split; [cbn; lia|]. split; [reflexivity|]. split; [reflexivity|]. split; [exact path01_hollow|].
  split; [intros i j _; unfold path01; destruct (_ || _); auto|]. split; [exact H|].
  - intros b Hb. destruct (u_after_crema path3 c (u_fresh false) o' (or_introl eq_refl)) as (q & v & adj & _ & V & _ & _ & B & _);
      [cbn; tauto|exact H|]. injection V as <-. rewrite B in Hb. injection Hb as <-. exact R3.
Qed.
Lemma name_case m : In m ["crema"; "crema-sparse"]%string -> exists c o', c_model c = m /\ c_adjacency c = AdjName "cm" /\
  u_solve_tool path3 c (u_fresh false) = (o', None) /\ us_beta o' = Some rates3 /\ forall x, us_x o' = Some x -> forall i, 0 < x i.
Proof.
  intros Hm. set (c := call_of m "quasinewton" (AdjName "cm") two_values rates3).
  assert (P : forall q, 0 < two_values q) by (intros [|[|[|q]]]; unfold two_values; cbn; lra).
  destruct (u_completes_name path3 c (u_fresh false) "cm" two_values (vec two_values) rates3 (vec rates3)) as (o' & H);
    [exact Hm|cbn; tauto|cbn; tauto|reflexivity|cbn; tauto|reflexivity|reflexivity|reflexivity|reflexivity
    |intros q; unfold cm_factor; cbn; left; apply P|intros i j _ _; change (0 < rates3 i + rates3 j); pose proof (rates3_pos i); pose proof (rates3_pos j); lra|].
  exists c, o'. split; [reflexivity|]. split; [reflexivity|]. split; [exact H|].
  destruct (u_after_crema path3 c (u_fresh false) o' Hm) as (q & v & adj & A & V & _ & X' & B' & _); [cbn; tauto|exact H|]. injection V as <-.
  split; [exact B'|]. intros x X. destruct (u_adj_name path3 c (u_fresh false) "cm" q eq_refl (or_introl eq_refl) A) as (w & W & J & _).
  injection W as <-. rewrite X', J in X. injection X as <-. intros i. unfold cm_factor. cbn. apply P.
Qed.
Lemma reported_crema_name_case : exists c o', (0 < un_n path3)%nat /\ c_model c = "crema"%string /\ c_adjacency c = AdjName "cm" /\
  u_solve_tool path3 c (u_fresh false) = (o', None) /\
  (forall x b, us_x o' = Some x -> us_beta o' = Some b -> (forall i, (i < un_n path3)%nat -> 0 <= x i) /\ positive_rates (un_n path3) (p_ubcm x) b).
Proof.
  destruct (name_case "crema" (or_introl eq_refl)) as (c & o' & M & A & H & B & X). exists c, o'. split; [cbn; lia|]. split; [exact M|]. split; [exact A|].
  split; [exact H|].
  - intros x b HX HB. rewrite B in HB. injection HB as <-. split; [intros i _; left; apply (X x HX)|].
    intros i j _ _. pose proof (rates3_pos i); pose proof (rates3_pos j); lra.
Qed.
Lemma reported_sparse_case : exists c o', (0 < un_n path3)%nat /\ c_model c = "crema-sparse"%string /\ c_adjacency c = AdjName "cm" /\
  u_solve_tool path3 c (u_fresh false) = (o', None) /\
  (forall x b, us_x o' = Some x -> us_beta o' = Some b -> (forall i, (i < un_n path3)%nat -> 0 <= x i) /\ forall i j, (i < j < un_n path3)%nat -> 0 < b i + b j).
Proof.
  destruct (name_case "crema-sparse" (or_intror (or_introl eq_refl))) as (c & o' & M & A & H & B & X). exists c, o'. split; [cbn; lia|]. split; [exact M|]. split; [exact A|].
  split; [exact H|]. 
  intros x b HX HB. rewrite B in HB. injection HB as <-. split; [intros i _; left; apply (X x HX)|].
  intros i j _. pose proof (rates3_pos i); pose proof (rates3_pos j); lra.
Qed.
Lemma reported_dcm_case : exists c o', (0 < dn_n d2)%nat /\ d_paired d2 /\ ds_bo (d_fresh false) = None /\ In (c_model c) ["dcm"; "dcm_exp"]%string /\
  d_solve_tool d2 c (d_fresh false) = (o', None) /\
  (forall x y, ds_x o' = Some x -> ds_y o' = Some y -> forall i j, (i < dn_n d2)%nat -> (j < dn_n d2)%nat -> i <> j -> 0 <= x i * y j).
Proof.
  destruct case_dcm as (o' & H1 & H2 & H3 & H4 & _ & H & HX & _). exists k_dcm, o'. split; [exact H1|]. split; [exact H2|]. split; [exact H3|].
  split; [left; symmetry; exact H4|]. split; [exact H|]. 
  intros x y X Y i j Hi Hj _. destruct (HX x y X Y) as [SX SY]. apply Rmult_le_pos; [exact (supported_nonneg _ _ _ SX i Hi)|exact (supported_nonneg _ _ _ SY j Hj)].
Qed.
Lemma reported_decm_case : exists c o', (0 < dn_n d2)%nat /\ In (c_model c) ["decm"; "decm_exp"]%string /\ d_solve_tool d2 c (d_fresh false) = (o', None) /\
  (forall x y bo bi, ds_x o' = Some x -> ds_y o' = Some y -> ds_bo o' = Some bo -> ds_bi o' = Some bi -> decm_dom (dn_n d2) (join4 (dn_n d2) x y bo bi)).
Proof.
  destruct case_decm as (o' & H1 & H2 & _ & H & HX & _). exists k_decm, o'. split; [exact H1|]. split; [left; symmetry; exact H2|]. split; [exact H|].
  intros x y bo bi X Y BO BI. apply (HX x y bo bi X Y BO BI).
Qed.
Lemma reported_dcrema_given_case : exists c o', (0 < dn_n d2)%nat /\ c_model c = "crema"%string /\ c_adjacency c = AdjMatrix ones /\
  (forall i j, (i < dn_n d2)%nat -> (j < dn_n d2)%nat -> ones i j = 0 \/ ones i j = 1) /\ d_solve_tool d2 c (d_fresh false) = (o', None) /\
  (forall bo bi, ds_bo o' = Some bo -> ds_bi o' = Some bi -> positive_rates_dir (dn_n d2) ones bo bi).
Proof.
  destruct case_dcrema as (o' & H1 & H2 & _ & _ & H3 & H & HX). exists k_dcrema, o'. split; [exact H1|]. split; [exact H2|]. split; [exact H3|].
  split; [intros i j _ _; unfold ones; destruct (Nat.eqb i j); auto|]. split; [exact H|exact HX].
Qed.
Lemma dname_case m : In m ["crema"; "crema-sparse"]%string -> exists c o', c_model c = m /\ c_adjacency c = AdjName "dcm" /\
  d_solve_tool d2 c (d_fresh false) = (o', None) /\ ds_bo o' = Some half /\ ds_bi o' = Some (drop 2 half) /\
  forall x y, ds_x o' = Some x -> ds_y o' = Some y -> forall i, x i = 1 / 2 /\ y i = 1 / 2.
Proof.
  intros Hm. set (c := call_of m "quasinewton" (AdjName "dcm") half half).
  destruct (d_completes_name d2 c (d_fresh false) "dcm" half (vec half) half (vec half)) as (o' & H & X & Y & BO & BI);
    [reflexivity|exact Hm|cbn; tauto|cbn; tauto|reflexivity|cbn; tauto|reflexivity|reflexivity|reflexivity|reflexivity| | | |].
  1,2: intros [|[|i]] Hi; [| |cbn in Hi; lia]; unfold dir_factor; cbn; unfold half; split; lra.
  { cbn; unfold half; intros; lra. }
  exists c, o'. split; [reflexivity|]. split; [reflexivity|]. split; [exact H|]. split; [exact BO|]. split; [exact BI|].
  intros x y X' Y' i. rewrite X in X'. rewrite Y in Y'. injection X' as <-. injection Y' as <-. unfold dir_factor. cbn. unfold half. lra.
Qed.
Lemma d2_supported x : (forall i, x i = 1 / 2) -> supported (dn_n d2) (at_list (dn_out d2)) x /\ supported (dn_n d2) (at_list (dn_in d2)) x.
Proof. intros H. split; intros [|[|i]] Hi; try (cbn in Hi; lia); rewrite H; cbn; split; intros; lra. Qed.
Lemma reported_dcrema_name_case : exists c o', (0 < dn_n d2)%nat /\ d_paired d2 /\ c_model c = "crema"%string /\ c_adjacency c = AdjName "dcm" /\
  d_solve_tool d2 c (d_fresh false) = (o', None) /\
  (forall x y bo bi, ds_x o' = Some x -> ds_y o' = Some y -> ds_bo o' = Some bo -> ds_bi o' = Some bi ->
     supported (dn_n d2) (at_list (dn_out d2)) x /\ supported (dn_n d2) (at_list (dn_in d2)) y /\ positive_rates_dir (dn_n d2) (dcm_prob x y) bo bi).
Proof.
  destruct (dname_case "crema" (or_introl eq_refl)) as (c & o' & M & A & H & BO & BI & X). exists c, o'. split; [cbn; lia|]. split; [reflexivity|]. split; [exact M|].
  split; [exact A|]. split; [exact H|].
  - intros x y bo bi HX HY HO HI. rewrite BO in HO. rewrite BI in HI. injection HO as <-. injection HI as <-.
    split; [apply (d2_supported x); intros i; apply (X x y HX HY)|]. split; [apply (d2_supported y); intros i; apply (X x y HX HY)|].
    intros i j _ _ _. unfold drop, half. lra.
Qed.
Lemma reported_dsparse_case : exists c o', (0 < dn_n d2)%nat /\ d_paired d2 /\ c_model c = "crema-sparse"%string /\ c_adjacency c = AdjName "dcm" /\
  d_solve_tool d2 c (d_fresh false) = (o', None) /\
  (forall x y bo bi, ds_x o' = Some x -> ds_y o' = Some y -> ds_bo o' = Some bo -> ds_bi o' = Some bi ->
     supported (dn_n d2) (at_list (dn_out d2)) x /\ supported (dn_n d2) (at_list (dn_in d2)) y /\
     forall i j, (i < dn_n d2)%nat -> (j < dn_n d2)%nat -> i <> j -> 0 < bo i + bi j).
Proof.
  destruct (dname_case "crema-sparse" (or_intror (or_introl eq_refl))) as (c & o' & M & A & H & BO & BI & X). exists c, o'. split; [cbn; lia|]. split; [reflexivity|].
  split; [exact M|]. split; [exact A|]. split; [exact H|]. 
  intros x y bo bi HX HY HO HI. rewrite BO in HO. rewrite BI in HI. injection HO as <-. injection HI as <-.
  split; [apply (d2_supported x); intros i; apply (X x y HX HY)|]. split; [apply (d2_supported y); intros i; apply (X x y HX HY)|].
  intros i j _ _ _. unfold drop, half. lra.
Qed.

(** * Where they disagree *)
Lemma sup_dev_zero n a b e : sup_dev n a b e -> e <= 0 -> forall i, (i < n)%nat -> a i = b i.
Proof. intros [H _] He i Hi. specialize (H i Hi). destruct (Req_dec (a i - b i) 0) as [Z|Z]; [lra|]. apply Rabs_pos_lt in Z. lra. Qed.
(** A ring of five nodes: degree 2 and strength 2, solved exactly by the sparse version. *)
Definition ring5 : unet := {| un_dseq := [2; 2; 2; 2; 2]%nat; un_str := fun _ => 2 |}.
Definition one (_ : nat) : R := 1.
Definition k_ring5 : call := call_of "crema-sparse" "quasinewton" (AdjName "cm") one half.
Lemma sparse_doubles : exists g c o' pairs p b, c_model c = "crema-sparse"%string /\ In (c_method c) documented_methods /\ c_adjacency c = AdjName "cm" /\
  u_solve_tool g c (u_fresh false) = (o', None) /\ us_err o' = Some 0 /\
  u_draws g o' RealWeighted (fun G => real_outcome G p b) pairs /\
  forall i, (i < un_n g)%nat -> at_list (un_dseq g) i = 2 /\ touching pairs p i = 4 /\ un_str g i = 2 /\ touching pairs (real_weight p b) i = 4.
Proof.
  destruct (u_completes_name ring5 k_ring5 (u_fresh false) "cm" one (vec one) half (vec half)) as (o' & H);
    [cbn; tauto|cbn; tauto|cbn; tauto|reflexivity|cbn; tauto|reflexivity|reflexivity|reflexivity|reflexivity|unfold cm_factor, one; cbn; intros; lra|cbn; unfold half; intros; lra|].
  assert (XB : forall x b, us_x o' = Some x -> us_beta o' = Some b -> (forall i, x i = 1) /\ b = half).
  { intros x b X B.
    destruct (u_after_crema ring5 k_ring5 (u_fresh false) o' (or_intror (or_introl eq_refl))) as (q & v & adj & A & V & _ & X' & B' & _); [cbn; tauto|exact H|].
    injection V as <-. rewrite B' in B. injection B as <-.
    destruct (u_adj_name ring5 k_ring5 (u_fresh false) "cm" q eq_refl (or_introl eq_refl) A) as (w & W & J & _).
    injection W as <-. rewrite X', J in X. injection X as <-. split; [reflexivity|reflexivity]. }
  assert (HD : forall x b, us_x o' = Some x -> us_beta o' = Some b -> (forall i, (i < un_n ring5)%nat -> 0 <= x i) /\ forall i j, (i < j < un_n ring5)%nat -> 0 < b i + b j).
  { intros x b X B. destruct (XB x b X B) as [X1 ->]. split; [intros i _; rewrite X1; lra|intros i j _; unfold half; lra]. }
  destruct (reported_sparse ring5 k_ring5 (u_fresh false) o' "cm")
    as (pairs & p & b & ek & es & S & _ & E & S1 & S2); [cbn; lia|reflexivity|reflexivity|left; reflexivity|exact H|exact HD|].
  assert (Z : us_err o' = Some 0).
  { destruct (u_error_crema_name ring5 k_ring5 (u_fresh false) o' "cm") as (va & v & cls & x & ek' & es' & _ & V & X & B & E' & _ & _ & (_ & i & Hi & K1) & (_ & j & Hj & K2));
      [cbn; lia|right; left; reflexivity|reflexivity|left; reflexivity|exact H| |].
    { intros x b' X B. destruct (HD x b' X B) as [P1 P2]. split; [exact P1|]. intros i j Hij _. apply P2, Hij. }
    destruct (XB x (o_x v) X B) as [X1 BH]. rewrite E'. f_equal.
    assert (A1 : ek' = 0).
    { rewrite K1. cbv beta. rewrite mean_undirected_deg; [|exact Hi|intros u w; unfold p_ubcm; rewrite (Rmult_comm (x u)); reflexivity].
      unfold p_ubcm. rewrite (rsum_ext _ _ (fun j => if Nat.eqb i j then 0 else 1 / 2)) by (intros q _; rewrite !X1; destruct (Nat.eqb i q); [reflexivity|field]).
      do 5 (destruct i as [|i]; [cbn; apply Rabs_eq_0 || (replace (_ - _) with 0 by field; apply Rabs_R0)|]). cbn in Hi. lia. }
    assert (A2 : es' = 0).
    { rewrite K2. unfold crema_mean. rewrite BH. unfold p_ubcm.
      rewrite (rsum_ext _ _ (fun i => if Nat.eqb j i then 0 else 1 / 2)) by (intros q _; rewrite !X1; destruct (Nat.eqb j q); [reflexivity|unfold half; field]).
      do 5 (destruct j as [|j]; [cbn; replace (_ - _) with 0 by field; apply Rabs_R0|]). cbn in Hj. lia. }
    rewrite A1, A2. apply Rmax_left. lra. }
  exists ring5, k_ring5, o', pairs, p, b. split; [reflexivity|]. split; [cbn; tauto|]. split; [reflexivity|]. split; [exact H|]. split; [exact Z|]. split; [exact S|].
  rewrite E in Z. injection Z as Z. pose proof (Rmax_l es ek). pose proof (Rmax_r es ek). intros i Hi.
  pose proof (sup_dev_zero _ _ _ _ S1 ltac:(lra) i Hi) as T1. pose proof (sup_dev_zero _ _ _ _ S2 ltac:(lra) i Hi) as T2. cbv beta in T1, T2.
  assert (DG : at_list (un_dseq ring5) i = 2) by (do 5 (destruct i as [|i]; [cbn; lra|]); cbn in Hi; lia).
  split; [exact DG|]. split; [lra|]. split; [reflexivity|]. change (un_str ring5 i) with 2 in T2. lra.
Qed.
(** A matrix of probabilities given by the user: every pair is written. *)
Definition halves (i j : nat) : R := if Nat.eqb i j then 0 else 1 / 2.
Definition quarter (_ : nat) : R := 1 / 4.
Definition k_halves : call := call_of "crema" "newton" (AdjMatrix halves) quarter quarter.
Lemma fractional_all : exists g c o' a pairs b, c_model c = "crema"%string /\ In (c_method c) documented_methods /\ c_adjacency c = AdjMatrix a /\
  (forall i j, 0 <= a i j <= 1) /\ u_solve_tool g c (u_fresh false) = (o', None) /\ us_err o' = Some 0 /\
  u_draws g o' RealWeighted (fun G => sure_outcome G b) pairs /\
  forall i, (i < un_n g)%nat -> un_str g i = 1 /\ touching pairs (real_weight certain b) i = 2.
Proof.
  assert (HH : hollow halves) by (intros i; unfold halves; rewrite Nat.eqb_refl; reflexivity).
  assert (HR : positive_rates (un_n g2) halves quarter) by (intros i j _ _; unfold quarter; lra).
  destruct (u_completes_crema g2 k_halves (u_fresh false) halves quarter (vec quarter) eq_refl) as (o' & H);
    [cbn; tauto|reflexivity|exact HH|reflexivity|reflexivity|exact HR|].
  assert (HB : us_beta o' = Some quarter).
  { destruct (u_after_crema g2 k_halves (u_fresh false) o' (or_introl eq_refl)) as (q & v & adj & _ & V & _ & _ & B & _); [cbn; tauto|exact H|]. injection V as <-. exact B. }
  assert (HN : triu_edges 2 halves = [(0%nat, 1%nat, 1 / 2)]).
  { unfold triu_edges, row_edges, halves. cbn. repeat (destruct (Req_EM_T _ _); try lra). reflexivity. }
  exists g2, k_halves, o', halves, (edge_pairs (triu_edges (un_n g2) halves)), (sum2 (array (un_n g2) quarter) (array (un_n g2) quarter)).
  split; [reflexivity|]. split; [cbn; tauto|]. split; [reflexivity|]. split; [intros i j; unfold halves; destruct (Nat.eqb i j); lra|]. split; [exact H|]. split; [|split].
  - destruct (u_error_crema_matrix g2 k_halves (u_fresh false) o' halves) as (v & e & V & _ & E & _ & i & Hi & K).
    { cbn. lia. } { left. reflexivity. } { reflexivity. } { exact HH. } { exact H. } { intros b Hb. rewrite HB in Hb. injection Hb as <-. exact HR. }
    injection V as <-. rewrite E, K. f_equal.
    assert (HI : i = O \/ i = 1%nat) by (cbn in Hi; lia).
    destruct HI as [-> | ->]; unfold crema_mean, halves, quarter, g2; cbn; replace (_ - _) with 0 by field; apply Rabs_R0.
  - apply (crema_given_sample g2 k_halves (u_fresh false) o' halves quarter eq_refl eq_refl HH H HB HR).
  - intros i Hi. split; [reflexivity|]. change (un_n g2) with 2%nat. rewrite HN. unfold touching, edge_pairs, real_weight, certain, sum2, array, quarter.
    assert (HI : i = O \/ i = 1%nat) by (cbn in Hi; lia). destruct HI as [-> | ->]; cbn; field.
Qed.
(** The sparse version on a matrix: no file. *)
Lemma sparse_matrix_case : exists c o', c_model c = "crema-sparse"%string /\ c_adjacency c = AdjMatrix ones /\ d_solve_tool d2 c (d_fresh false) = (o', None).
Proof.
  destruct (d_completes_matrix d2 (call_of "crema-sparse" "quasinewton" (AdjMatrix ones) half half) (d_fresh false) ones half (vec half)) as (o' & H);
    [cbn; tauto|cbn; tauto|reflexivity|reflexivity|reflexivity|intros i j _ _ _; cbn; unfold drop, half; lra|].
  eexists. exists o'. split; [|split; [|exact H]]; reflexivity.
Qed.
(** A misspelt method: the call fails, the sampler draws from the initial guess. *)
Definition k_misspelt : call := call_of "ecm" "newtn" AdjOther ecm_values ecm_values.
Lemma failed_case : In (c_model k_misspelt) ["ecm"; "ecm_exp"]%string /\ c_guess k_misspelt = Some ecm_values /\
  (forall d, u_dispatch (c_model k_misspelt) (c_method k_misspelt) None <> inl d) /\
  (forall i j, (i < j < un_n path3)%nat -> 0 <= ecm_values i * ecm_values j /\ 0 <= ecm_values (i + un_n path3)%nat * ecm_values (j + un_n path3)%nat < 1).
Proof.
  split; [cbn; tauto|]. split; [reflexivity|]. split; [intros d; cbn; discriminate|]. 
  intros i j Hij. apply below3 in Hij. destruct Hij as [E|[E|E]]; injection E as -> ->; cbn; unfold ecm_values; cbn; lra.
Qed.

Lemma int_mean_case : mean_of_law (q_enh (1/2) (1/2)) (2/3) /\ int_weight (p_enh (fun _ _ => 1/2) (fun _ _ => 1/2)) (fun _ _ => 1/2) 0 1 = 2/3 /\
  uniform_then_geometric gen0 (two_draws start0).
Proof.
  assert (E : (1 - q_enh (1/2) (1/2) 0) / (1 - 1/2) = 2/3) by (unfold q_enh, linked; cbn [Nat.eqb negb pow]; field).
  split; [rewrite <- E; apply enh_mean; lra|]. split; [exact E|apply inv_gen_geometric].
Qed.
Lemma real_mean_case : mean_of_tail (fun t => 1/2 * exp (- 2 * t)) (1/4) /\ real_weight (fun _ _ => 1/2) (fun _ _ => 2) 0 1 = 1/4 /\
  uniform_then_exponential gen0 (two_draws start0).
Proof.
  assert (E : 1/2/2 = 1/4) by field. split; [rewrite <- E; apply (tail_mean (1/2) 2); lra|]. split; [exact E|apply inv_gen_exponential].
Qed.
Lemma sure_mean_case : real_weight certain (fun _ _ => 2) 0 1 = 1/2 /\ exponential_draws gen0 (fun v => two_draws start0 v 0).
Proof. split; [unfold real_weight, certain; field|apply inv_gen_exponential1]. Qed.
