(** What [ensemble_sampler] draws from after a completed [solve_tool], compared with the
    error that call reported: directed networks. *)
From Coq Require Import Reals List Arith Lra Lia Bool String ZArith Permutation.
From Coquelicot Require Import Coquelicot.
From Verif Require Import Base SpecDeriv SpecGraph SpecDirected SpecWeighted SpecCReMa SpecEnsemble SpecNetwork SpecSolve SpecDispatch
  ModelCM ModelECM ModelDCM ModelDECM ModelCReMa ModelNetwork ModelDispatch ModelSolve ModelSampler SpecSampler SpecSamples ModelSample SpecReported
  ProofsGraph ProofsEnsemble ProofsMainDCM ProofsDECM ProofsMainDECM ProofsCReMa ProofsMainCReMa ProofsDirCReMa ProofsDirSparseCReMa
  ProofsUnique ProofsAdjacency WitnessCReMa ProofsDispatch ProofsSolve ProofsSolveD ProofsSampler ProofsSamples ProofsReported.
Local Open Scope R_scope.
Import ListNotations.
#[local] Opaque d_dispatch lookup.

(** * Sums over the pairs of an edge list *)
Lemma all_once n p : once_dir n (edge_pairs (all_edges n p)).
Proof.
  split.
  - apply NoDup_map_inj_in; [apply NoDup_all|]. intros [[a b] w] [[a' b'] w'] H1 H2 E. cbn in E. injection E as <- <-.
    apply in_all in H1. apply in_all in H2. destruct H1 as (_ & _ & -> & _), H2 as (_ & _ & -> & _). reflexivity.
  - intros i j H. apply in_map_iff in H. destruct H as ([[a b] w] & E & H). cbn in E. injection E as -> ->. apply in_all in H. tauto.
Qed.
Lemma in_edge_pairs n p i j : In (i, j) (edge_pairs (all_edges n p)) -> (i < n)%nat /\ (j < n)%nat /\ p i j <> 0.
Proof. intros H. apply in_map_iff in H. destruct H as ([[a b] w] & E & H). cbn in E. injection E as -> ->. apply in_all in H. tauto. Qed.
Lemma all_weights n a q r f : (forall u v, (u < n)%nat -> (v < n)%nat -> (a u v = 0 -> r u v = 0) /\ (a u v <> 0 -> q u v = r u v)) ->
  lsum (edge_pairs (all_edges n a)) (fun e => if f e : bool then q (fst e) (snd e) else 0) =
  rsum n (fun i => rsum n (fun j => if f (i, j) then r i j else 0)).
Proof.
  intros H. rewrite lsum_edge_pairs. cbn [fst snd].
  rewrite (esum_ext _ _ (fun i j w => if f (i, j) then (if Req_EM_T w 0 then 0 else q i j) else 0)).
  - rewrite esum_all.
    + apply rsum_ext. intros i Hi. apply rsum_ext. intros j Hj. destruct (f (i, j)); [|reflexivity]. destruct (H i j Hi Hj) as [H1 H2].
      destruct (Req_EM_T (a i j) 0) as [Z|Z]; [symmetry; apply H1, Z|apply H2, Z].
    + intros i j. destruct (Req_EM_T 0 0); [destruct (f (i, j)); reflexivity|lra].
  - intros i j w HI. apply in_all in HI. destruct HI as (_ & _ & -> & Z). destruct (Req_EM_T (a i j) 0); [contradiction|reflexivity].
Qed.
Lemma leave_all n a q r i : (forall u v, (u < n)%nat -> (v < n)%nat -> (a u v = 0 -> r u v = 0) /\ (a u v <> 0 -> q u v = r u v)) -> (i < n)%nat ->
  leaving (edge_pairs (all_edges n a)) q i = rsum n (fun j => r i j).
Proof.
  intros H Hi. unfold leaving. rewrite (all_weights n a q r (fun e => Nat.eqb (fst e) i) H). cbn [fst].
  rewrite <- (rsum_single n i (fun k => rsum n (fun j => r k j)) Hi). apply rsum_ext. intros k _. destruct (Nat.eqb k i); [reflexivity|apply rsum_zero; reflexivity].
Qed.
Lemma enter_all n a q r j : (forall u v, (u < n)%nat -> (v < n)%nat -> (a u v = 0 -> r u v = 0) /\ (a u v <> 0 -> q u v = r u v)) -> (j < n)%nat ->
  entering (edge_pairs (all_edges n a)) q j = rsum n (fun i => r i j).
Proof.
  intros H Hj. unfold entering. rewrite (all_weights n a q r (fun e => Nat.eqb (snd e) j) H). cbn [snd]. apply rsum_ext. intros i _.
  rewrite <- (rsum_single n j (fun k => r i k) Hj). apply rsum_ext. intros k _. reflexivity.
Qed.
(** Deviations over all the pairs of distinct nodes. *)
Lemma leave_same n p f k e : (forall i j, (i < n)%nat -> (j < n)%nat -> i <> j -> p i j = f i j) ->
  sup_dev n (fun i => rsum n (fun j => if Nat.eqb i j then 0 else f i j)) k e -> sup_dev n (leaving (neq_pairs n) p) k e.
Proof.
  intros H S. eapply sup_dev_ext; [| |exact S]; [|reflexivity]. intros i Hi. rewrite leave_neq by exact Hi. apply rsum_ext. intros j Hj.
  destruct (Nat.eqb_spec i j); [reflexivity|]. rewrite H by assumption. reflexivity.
Qed.
Lemma enter_same n p f k e : (forall i j, (i < n)%nat -> (j < n)%nat -> i <> j -> p i j = f i j) ->
  sup_dev n (fun j => rsum n (fun i => if Nat.eqb j i then 0 else f i j)) k e -> sup_dev n (entering (neq_pairs n) p) k e.
Proof.
  intros H S. eapply sup_dev_ext; [| |exact S]; [|reflexivity]. intros i Hi. rewrite enter_neq by exact Hi. apply rsum_ext. intros j Hj.
  destruct (Nat.eqb_spec i j); [reflexivity|]. rewrite H by auto. reflexivity.
Qed.
Lemma out_degree_mean n p k e : sup_dev n (fun i => mean_directed n p (fun a => deg n a i)) k e ->
  sup_dev n (fun i => rsum n (fun j => if Nat.eqb i j then 0 else p i j)) k e.
Proof. intros S. eapply sup_dev_ext; [| |exact S]; [|reflexivity]. intros i Hi. apply mean_directed_deg, Hi. Qed.
Lemma in_degree_mean n p k e : sup_dev n (fun i => mean_directed n p (fun a => indeg n a i)) k e ->
  sup_dev n (fun j => rsum n (fun i => if Nat.eqb j i then 0 else p i j)) k e.
Proof.
  intros S. eapply sup_dev_ext; [| |exact S]; [|reflexivity]. intros i Hi. cbv beta. rewrite mean_directed_indeg by exact Hi. apply rsum_ext. intros j _.
  rewrite (Nat.eqb_sym j i). reflexivity.
Qed.

(** * What is left of a completed call *)
Lemma d_error_given g o o' r : d_solution_error g o = (o', r) -> ds_given o' = ds_given o.
Proof.
  intros H. unfold d_solution_error, d_error_strength, d_error_degree in H.
  repeat match type of H with
  | context [match ?t with _ => _ end] => match t with context [match _ with _ => _ end] => fail 1 | _ => destruct t eqn:? end
  end; cbn [ds_x ds_y ds_bo ds_bi ds_adj ds_given ds_sparse ds_last ds_ek ds_set_ek ds_set_es ds_set_err ds_set_errs] in *; try discriminate;
  injection H as <- <-; cbn; congruence.
Qed.
Lemma d_tool_last g c o o' : In (c_model c) ["dcm"; "dcm_exp"; "decm"; "decm_exp"]%string -> d_solve_tool g c o = (o', None) -> ds_last o' = Some (c_model c).
Proof.
  intros Hm H. destruct (d_tool_problem _ _ _ _ Hm H) as (o1 & HS & HE).
  destruct (d_error_frame _ _ _ _ HE) as (_ & _ & _ & _ & _ & _ & _ & F & _). rewrite F. clear H F HE.
  assert (D : In (c_model c) ["dcm"; "dcm_exp"]%string \/ In (c_model c) ["decm"; "decm_exp"]%string) by (cbn in Hm |- *; tauto).
  destruct D as [D|D].
  - apply d_solve_dcm in HS; [|exact D]. destruct HS as (d & v & _ & _ & ->). reflexivity.
  - apply d_solve_decm in HS; [|exact D]. destruct HS as (d & v & HS). apply HS.
Qed.
Lemma d_crema_left g c o o' : In (c_model c) ["crema"; "crema-sparse"]%string -> d_solve_tool g c o = (o', None) ->
  exists o1, d_set_adjacency g c o = (o1, None) /\ ds_last o' = Some (c_model c) /\ ds_adj o' = ds_adj o1 /\ ds_given o' = ds_given o1 /\
    ds_x o' = ds_x o1 /\ ds_y o' = ds_y o1.
Proof.
  intros Hm H. destruct (d_tool_crema _ _ _ _ Hm H) as (o1 & H1 & H2).
  apply d_crema_inv in H1; [|exact Hm]. destruct H1 as (o2 & d & v & v0 & adj & HA & _ & Hv & HJ & ->).
  destruct (d_error_frame _ _ _ _ H2) as (F1 & F2 & _ & _ & _ & _ & _ & F3 & F4). pose proof (d_error_given _ _ _ _ H2) as F5.
  exists o2. split; [exact HA|]. rewrite F1, F2, F3, F4, F5. repeat split.
Qed.

(** * The calls *)
Lemma mul2_two n x y i j : (i < n)%nat -> (j < n)%nat -> mul2 (array n x) (array n y) i j = x i * y j.
Proof. intros. unfold mul2. rewrite !nth_array by assumption. reflexivity. Qed.
Lemma sum2_two n x y i j : (i < n)%nat -> (j < n)%nat -> sum2 (array n x) (array n y) i j = x i + y j.
Proof. intros. unfold sum2. rewrite !nth_array by assumption. reflexivity. Qed.
Lemma p_binary_two n x y i j : (i < n)%nat -> (j < n)%nat -> p_binary (array n x) (array n y) i j = p_dbcm x y i j.
Proof. intros. unfold p_binary. rewrite mul2_two by assumption. reflexivity. Qed.
Lemma p_binary_prob n x y i j : (i < n)%nat -> (j < n)%nat -> i <> j -> p_binary (array n x) (array n y) i j = dcm_prob x y i j.
Proof. intros. unfold p_binary, dcm_prob. rewrite mul2_two by assumption. rewrite (proj2 (Nat.eqb_neq i j)) by assumption. reflexivity. Qed.


Lemma reported_dcm g c o o' : (0 < dn_n g)%nat -> d_paired g -> ds_bo o = None -> In (c_model c) ["dcm"; "dcm_exp"]%string ->
  d_solve_tool g c o = (o', None) ->
  (forall x y, ds_x o' = Some x -> ds_y o' = Some y -> forall i j, (i < dn_n g)%nat -> (j < dn_n g)%nat -> i <> j -> 0 <= x i * y j) ->
  exists pairs p e1 e2, d_draws g o' Unweighted (fun G => bare_outcome G p) pairs /\
    once_dir (dn_n g) pairs /\ ds_err o' = Some (Rmax e1 e2) /\
    sup_dev (dn_n g) (leaving pairs p) (at_list (dn_out g)) e1 /\ sup_dev (dn_n g) (entering pairs p) (at_list (dn_in g)) e2.
Proof.
  intros Hn Hp Hb Hm H Hx. destruct (d_error_dcm g c o o' Hn Hp Hb Hm H) as (v & s & cls & m & x & y & e1 & e2 & Hv & X & Y & E & _ & _ & _ & S1 & S2).
  assert (HL : ds_last o' = Some (c_model c)) by (apply (d_tool_last g c o); [cbn in Hm |- *; tauto|exact H]).
  specialize (Hx x y X Y). set (n := dn_n g) in *.
  exists (neq_pairs n), (p_binary (array n x) (array n y)), e1, e2. split; [|split; [apply neq_once|split; [exact E|split]]].
  - intros G N cpu out seed entropy s0 choice HG HS HC. unfold d_ensemble_sampler. rewrite HL, X, Y. fold n.
    replace (among (c_model c) ["dcm"; "dcm_exp"]%string) with true by (destruct Hm as [M|[M|[]]]; rewrite <- M; reflexivity).
    rewrite (sampler_dcm G _ N cpu out seed entropy choice s0 HG); cbn [v_last_model v_x v_y attributes]; rewrite ?length_array.
    + reflexivity.
    + exact Hm.
    + reflexivity.
    + intros i j Hi Hj Hij. rewrite mul2_two by assumption. apply Hx; assumption.
    + lengths HC.
    + exact HS.
  - apply (leave_same n _ (p_dbcm x y)); [|apply out_degree_mean, S1]. intros i j Hi Hj _. apply p_binary_two; assumption.
  - apply (enter_same n _ (p_dbcm x y)); [|apply in_degree_mean, S2]. intros i j Hi Hj _. apply p_binary_two; assumption.
Qed.
Lemma reported_decm g c o o' : (0 < dn_n g)%nat -> In (c_model c) ["decm"; "decm_exp"]%string -> d_solve_tool g c o = (o', None) ->
  (forall x y bo bi, ds_x o' = Some x -> ds_y o' = Some y -> ds_bo o' = Some bo -> ds_bi o' = Some bi -> decm_dom (dn_n g) (join4 (dn_n g) x y bo bi)) ->
  exists pairs p y e1 e2 e3 e4, d_draws g o' IntWeighted (fun G => int_outcome G p y) pairs /\
    once_dir (dn_n g) pairs /\ ds_err o' = Some (Rmax (Rmax e1 e2) (Rmax e3 e4)) /\
    sup_dev (dn_n g) (leaving pairs p) (at_list (dn_out g)) e1 /\ sup_dev (dn_n g) (entering pairs p) (at_list (dn_in g)) e2 /\
    sup_dev (dn_n g) (leaving pairs (int_weight p y)) (dn_sout g) e3 /\ sup_dev (dn_n g) (entering pairs (int_weight p y)) (dn_sin g) e4.
Proof.
  intros Hn Hm H Hx.
  destruct (d_error_decm g c o o' Hn Hm H Hx) as (v & s & x & y & bo & bi & e1 & e2 & e3 & e4 & Hv & X & Y & BO & BI & E & _ & _ & _ & _ & S1 & S2 & S3 & S4).
  assert (HL : ds_last o' = Some (c_model c)) by (apply (d_tool_last g c o); [cbn in Hm |- *; tauto|exact H]).
  specialize (Hx x y bo bi X Y BO BI). set (n := dn_n g) in *.
  assert (HD : forall i j, (i < n)%nat -> (j < n)%nat -> i <> j -> 0 <= x i * y j /\ 0 <= bo i * bi j < 1).
  { intros i j Hi Hj Hij. destruct Hx as [D1 D2]. specialize (D2 i j Hi Hj Hij).
    pose proof (D1 i ltac:(lia)) as K1. pose proof (D1 (j + n)%nat ltac:(lia)) as K2.
    pose proof (D1 (i + 2 * n)%nat ltac:(lia)) as K3. pose proof (D1 (j + 3 * n)%nat ltac:(lia)) as K4.
    destruct (join4_blocks n x y bo bi i Hi) as (I1 & _ & I3 & _), (join4_blocks n x y bo bi j Hj) as (_ & J2 & _ & J4).
    rewrite I1 in K1. rewrite J2 in K2. rewrite I3 in K3, D2. rewrite J4 in K4, D2.
    split; [apply Rmult_le_pos; assumption|]. split; [apply Rmult_le_pos; assumption|exact D2]. }
  exists (neq_pairs n), (p_enh (mul2 (array n x) (array n y)) (mul2 (array n bo) (array n bi))), (mul2 (array n bo) (array n bi)), e1, e2, e3, e4.
  split; [|split; [apply neq_once|split; [exact E|]]].
  - intros G N cpu out seed entropy s0 choice HG HS HC. unfold d_ensemble_sampler. rewrite HL, X, Y, BO, BI. fold n.
    replace (among (c_model c) ["dcm"; "dcm_exp"]%string) with false by (destruct Hm as [M|[M|[]]]; rewrite <- M; reflexivity).
    replace (among (c_model c) ["decm"; "decm_exp"]%string) with true by (destruct Hm as [M|[M|[]]]; rewrite <- M; reflexivity).
    rewrite (sampler_decm G _ N cpu out seed entropy choice s0 HG); cbn [v_last_model v_x v_y v_b_out v_b_in attributes]; rewrite ?length_array; try reflexivity.
    + exact Hm.
    + intros i j Hi Hj Hij. rewrite !mul2_two by assumption. apply HD; assumption.
    + lengths HC.
    + exact HS.
  - assert (HP : forall i j, (i < n)%nat -> (j < n)%nat -> i <> j ->
      p_enh (mul2 (array n x) (array n y)) (mul2 (array n bo) (array n bi)) i j = link_mean (x i * y j) (bo i * bi j)).
    { intros i j Hi Hj Hij. unfold p_enh. rewrite !mul2_two by assumption. apply enh_link; apply HD; assumption. }
    assert (HW : forall i j, (i < n)%nat -> (j < n)%nat -> i <> j ->
      int_weight (p_enh (mul2 (array n x) (array n y)) (mul2 (array n bo) (array n bi))) (mul2 (array n bo) (array n bi)) i j = weight_mean (x i * y j) (bo i * bi j)).
    { intros i j Hi Hj Hij. unfold int_weight. rewrite HP, mul2_two by assumption. apply enh_weight; apply HD; assumption. }
    split; [exact (leave_same n _ _ _ _ HP S1)|]. split; [exact (enter_same n _ _ _ _ HP S2)|].
    split; [exact (leave_same n _ _ _ _ HW S3)|exact (enter_same n _ _ _ _ HW S4)].
Qed.

(** CReMa on a matrix of zeros and ones. *)
Lemma reported_dcrema_given g c o o' a : (0 < dn_n g)%nat -> c_model c = "crema"%string ->
  c_adjacency c = AdjMatrix a -> (forall i j, (i < dn_n g)%nat -> (j < dn_n g)%nat -> a i j = 0 \/ a i j = 1) ->
  d_solve_tool g c o = (o', None) -> (forall bo bi, ds_bo o' = Some bo -> ds_bi o' = Some bi -> positive_rates_dir (dn_n g) a bo bi) ->
  exists pairs b e1 e2, d_draws g o' RealWeighted (fun G => sure_outcome G b) pairs /\
    once_dir (dn_n g) pairs /\ (forall i j, (i < dn_n g)%nat -> (j < dn_n g)%nat -> In (i, j) pairs <-> a i j = 1) /\
    ds_err o' = Some (Rmax e1 e2) /\ sup_dev (dn_n g) (leaving pairs (real_weight certain b)) (dn_sout g) e1 /\
    sup_dev (dn_n g) (entering pairs (real_weight certain b)) (dn_sin g) e2.
Proof.
  intros Hn Hm Ha H01 H HP. assert (HM : In (c_model c) ["crema"; "crema-sparse"]%string) by (left; symmetry; exact Hm).
  destruct (d_error_crema_matrix g c o o' a Hn HM Ha H HP) as (v & bo & bi & e1 & e2 & Hv & BO & BI & E & _ & S1 & S2). specialize (HP _ _ BO BI).
  destruct (d_crema_left g c o o' HM H) as (o1 & H1 & L & A & Gv & _).
  destruct (d_adj_matrix _ _ _ _ _ Ha H1) as (J1 & J2 & _). rewrite J1 in A. rewrite J2 in Gv.
  set (n := dn_n g) in *. set (es := all_edges n a) in *. set (b := sum2 (array n bo) (array n bi)).
  assert (HW : forall u v, (u < n)%nat -> (v < n)%nat -> (a u v = 0 -> a u v / (bo u + bi v) = 0) /\ (a u v <> 0 -> real_weight certain b u v = a u v / (bo u + bi v))).
  { intros p q Hi Hj. unfold real_weight, certain, b. rewrite sum2_two by assumption. destruct (H01 p q Hi Hj) as [Z|Z]; rewrite Z; split; intros; [unfold Rdiv; ring|lra|lra|reflexivity]. }
  exists (edge_pairs es), b, e1, e2. split; [|split; [apply all_once|split; [|split; [exact E|split]]]].
  - intros G N cpu out seed entropy s0 choice HG HS HC. unfold d_ensemble_sampler. rewrite L, A, Gv, BO, BI, Hm. cbn [among existsb String.eqb Ascii.eqb Bool.eqb orb andb]. fold n.
    rewrite (sampler_crema_given G true _ N cpu out seed entropy choice s0 (map (fun e => fst (fst e)) es) (map (fun e => snd (fst e)) es) (map snd es) HG);
      cbn [v_last_model v_adjacency_given v_adjacency_crema v_b_out v_b_in rates_in attributes unpacked]; rewrite ?map_length, ?length_array, ?combine_pairs; try reflexivity.
    + intros i j Hij. apply in_edge_pairs in Hij. destruct Hij as (Hi & Hj & Z). split; [exact Hi|]. split; [exact Hj|]. rewrite sum2_two by assumption.
      apply HP; assumption.
    + lengths HC.
    + exact HS.
  - intros i j Hi Hj. split.
    + intros HI. apply in_edge_pairs in HI. destruct (H01 i j Hi Hj) as [Z|Z]; [exfalso; tauto|exact Z].
    + intros Z. apply in_map_iff. exists (i, j, 1). split; [reflexivity|]. apply in_all. rewrite Z. repeat split; try assumption. lra.
  - eapply sup_dev_ext; [| |exact S1]; [|reflexivity]. intros i Hi. unfold es. rewrite (leave_all n a _ _ i HW Hi). reflexivity.
  - eapply sup_dev_ext; [| |exact S2]; [|reflexivity]. intros i Hi. unfold es. rewrite (enter_all n a _ _ i HW Hi). reflexivity.
Qed.
(** CReMa on the probabilities of a binary model. *)
Lemma reported_dcrema_name g c o o' a : (0 < dn_n g)%nat -> d_paired g -> c_model c = "crema"%string ->
  c_adjacency c = AdjName a -> In a ["dcm"; "dcm_exp"]%string -> d_solve_tool g c o = (o', None) ->
  (forall x y bo bi, ds_x o' = Some x -> ds_y o' = Some y -> ds_bo o' = Some bo -> ds_bi o' = Some bi ->
     supported (dn_n g) (at_list (dn_out g)) x /\ supported (dn_n g) (at_list (dn_in g)) y /\ positive_rates_dir (dn_n g) (dcm_prob x y) bo bi) ->
  exists pairs p b e1 e2 e3 e4, d_draws g o' RealWeighted (fun G => real_outcome G p b) pairs /\
    once_dir (dn_n g) pairs /\ ds_err o' = Some (Rmax (Rmax e3 e4) (Rmax e1 e2)) /\
    sup_dev (dn_n g) (leaving pairs p) (at_list (dn_out g)) e1 /\ sup_dev (dn_n g) (entering pairs p) (at_list (dn_in g)) e2 /\
    sup_dev (dn_n g) (leaving pairs (real_weight p b)) (dn_sout g) e3 /\ sup_dev (dn_n g) (entering pairs (real_weight p b)) (dn_sin g) e4.
Proof.
  intros Hn Hp Hm Ha Hna H HP. assert (HM : In (c_model c) ["crema"; "crema-sparse"]%string) by (left; symmetry; exact Hm).
  destruct (d_error_crema_name g c o o' a Hn Hp HM Ha Hna H HP) as
    (va & v & s & cls & m & x & y & bo & bi & e1 & e2 & e3 & e4 & Hva & Hv & X & Y & BO & BI & E & _ & _ & _ & _ & S1 & S2 & S3 & S4).
  destruct (HP _ _ _ _ X Y BO BI) as (HX & HY & HR).
  destruct (d_crema_left g c o o' HM H) as (o1 & H1 & L & A & Gv & X1 & Y1).
  destruct (d_adj_name _ _ _ _ _ Ha Hna H1) as (va' & _ & J1 & J1' & J2 & _ & J4). rewrite Hm in J4. cbn [String.eqb Ascii.eqb Bool.eqb] in J4.
  rewrite X, J1 in X1. rewrite Y, J1' in Y1. injection X1 as EX. injection Y1 as EY. rewrite <- EX, <- EY in J4. rewrite J4 in A. rewrite J2 in Gv. clear J1 J1' J2 J4 EX EY.
  rewrite (all_edges_ext (dn_n g) (d_pm g x y) (dcm_prob x y)) in A by (intros; apply d_pm_prob; assumption).
  set (n := dn_n g) in *. set (es0 := all_edges n (dcm_prob x y)) in *. set (b := sum2 (array n bo) (array n bi)).
  assert (HW : forall u v, (u < n)%nat -> (v < n)%nat -> (dcm_prob x y u v = 0 -> dcm_prob x y u v / (bo u + bi v) = 0) /\
    (dcm_prob x y u v <> 0 -> real_weight (dcm_prob x y) b u v = dcm_prob x y u v / (bo u + bi v))).
  { intros p q Hi Hj. unfold real_weight, b. rewrite sum2_two by assumption. split; [intros Z; rewrite Z; unfold Rdiv; ring|reflexivity]. }
  assert (HQ : forall u v, (u < n)%nat -> (v < n)%nat -> (dcm_prob x y u v = 0 -> dcm_prob x y u v = 0) /\ (dcm_prob x y u v <> 0 -> dcm_prob x y u v = dcm_prob x y u v)) by tauto.
  exists (edge_pairs es0), (dcm_prob x y), b, e1, e2, e3, e4.
  split; [|split; [apply all_once|split; [exact E|split; [|split; [|split]]]]].
  - intros G N cpu out seed entropy s0 choice HG HS HC. unfold d_ensemble_sampler. rewrite L, A, Gv, BO, BI, Hm. cbn [among existsb String.eqb Ascii.eqb Bool.eqb orb andb]. fold n.
    rewrite (sampler_crema_prob G true _ N cpu out seed entropy choice s0 (map (fun e => fst (fst e)) es0) (map (fun e => snd (fst e)) es0) (map snd es0) HG);
      cbn [v_last_model v_adjacency_given v_adjacency_crema v_b_out v_b_in rates_in attributes unpacked]; rewrite ?map_length, ?length_array, ?combine_pairs; try reflexivity.
    + rewrite (combine_weights es0 (dcm_prob x y)) by (intros p q w HI; apply in_all in HI; tauto). rewrite listed_files. reflexivity.
    + intros i j Hij. apply in_edge_pairs in Hij. destruct Hij as (Hi & Hj & Z). split; [exact Hi|]. split; [exact Hj|]. rewrite sum2_two by assumption.
      apply HR; assumption.
    + lengths HC.
    + exact HS.
  - apply out_degree_mean in S1. eapply sup_dev_ext; [| |exact S1]; [|reflexivity]. intros i Hi. unfold es0. rewrite (leave_all n _ _ _ i HQ Hi). reflexivity.
  - apply in_degree_mean in S2. eapply sup_dev_ext; [| |exact S2]; [|reflexivity]. intros i Hi. unfold es0. rewrite (enter_all n _ _ _ i HQ Hi).
    apply rsum_ext. intros j _. unfold dcm_prob. rewrite (Nat.eqb_sym j i). reflexivity.
  - eapply sup_dev_ext; [| |exact S3]; [|reflexivity]. intros i Hi. unfold es0. rewrite (leave_all n _ _ _ i HW Hi). reflexivity.
  - eapply sup_dev_ext; [| |exact S4]; [|reflexivity]. intros i Hi. unfold es0. rewrite (enter_all n _ _ _ i HW Hi). reflexivity.
Qed.
Lemma reported_dsparse g c o o' a : (0 < dn_n g)%nat -> d_paired g -> c_model c = "crema-sparse"%string ->
  c_adjacency c = AdjName a -> In a ["dcm"; "dcm_exp"]%string -> d_solve_tool g c o = (o', None) ->
  (forall x y bo bi, ds_x o' = Some x -> ds_y o' = Some y -> ds_bo o' = Some bo -> ds_bi o' = Some bi ->
     supported (dn_n g) (at_list (dn_out g)) x /\ supported (dn_n g) (at_list (dn_in g)) y /\
     forall i j, (i < dn_n g)%nat -> (j < dn_n g)%nat -> i <> j -> 0 < bo i + bi j) ->
  exists pairs p b e1 e2 e3 e4, d_draws g o' RealWeighted (fun G => real_outcome G p b) pairs /\
    once_dir (dn_n g) pairs /\ ds_err o' = Some (Rmax (Rmax e3 e4) (Rmax e1 e2)) /\
    sup_dev (dn_n g) (leaving pairs p) (at_list (dn_out g)) e1 /\ sup_dev (dn_n g) (entering pairs p) (at_list (dn_in g)) e2 /\
    sup_dev (dn_n g) (leaving pairs (real_weight p b)) (dn_sout g) e3 /\ sup_dev (dn_n g) (entering pairs (real_weight p b)) (dn_sin g) e4.
Proof.
  intros Hn Hp Hm Ha Hna H HP. assert (HM : In (c_model c) ["crema"; "crema-sparse"]%string) by (right; left; symmetry; exact Hm).
  destruct (d_error_crema_name g c o o' a Hn Hp HM Ha Hna H) as
    (va & v & s & cls & m & x & y & bo & bi & e1 & e2 & e3 & e4 & Hva & Hv & X & Y & BO & BI & E & _ & _ & _ & _ & S1 & S2 & S3 & S4).
  { intros x y bo bi X Y BO BI. destruct (HP x y bo bi X Y BO BI) as (P1 & P2 & P3). split; [exact P1|]. split; [exact P2|]. intros i j Hi Hj Z.
    apply P3; try assumption. intros ->. apply Z. unfold dcm_prob. rewrite Nat.eqb_refl. reflexivity. }
  destruct (HP _ _ _ _ X Y BO BI) as (HX & HY & HR).
  destruct (d_crema_left g c o o' HM H) as (o1 & H1 & L & A & Gv & X1 & Y1).
  destruct (d_adj_name _ _ _ _ _ Ha Hna H1) as (va' & _ & J1 & J1' & J2 & _ & J4). rewrite Hm in J4. cbn [String.eqb Ascii.eqb Bool.eqb] in J4.
  rewrite X, J1 in X1. rewrite Y, J1' in Y1. injection X1 as EX. injection Y1 as EY. rewrite <- EX, <- EY in J4. rewrite J4 in A. rewrite J2 in Gv. clear J1 J1' J2 J4 EX EY.
  set (n := dn_n g) in *. set (b := sum2 (array n bo) (array n bi)).
  assert (HN : forall i, (i < n)%nat -> 0 <= x i /\ 0 <= y i).
  { intros i Hi. split; [exact (supported_nonneg _ _ _ HX i Hi)|exact (supported_nonneg _ _ _ HY i Hi)]. }
  exists (neq_pairs n), (p_binary (array n x) (array n y)), b, e1, e2, e3, e4.
  split; [|split; [apply neq_once|split; [exact E|split; [|split; [|split]]]]].
  - intros G N cpu out seed entropy s0 choice HG HS HC. unfold d_ensemble_sampler. rewrite L, A, Gv, BO, BI, Hm. cbn [among existsb String.eqb Ascii.eqb Bool.eqb orb andb]. fold n.
    rewrite (sampler_sparse_dir G _ N cpu out seed entropy choice s0 (array n x) (array n y) HG);
      cbn [v_last_model v_adjacency_given v_adjacency_crema v_b_out v_b_in attributes unpacked]; rewrite ?length_array; try reflexivity.
    + intros i j Hi Hj Hij. rewrite mul2_two, sum2_two by assumption. split; [apply Rmult_le_pos; apply HN; assumption|apply HR; assumption].
    + lengths HC.
    + exact HS.
  - apply (leave_same n _ (p_dbcm x y)); [|apply out_degree_mean, S1]. intros i j Hi Hj _. apply p_binary_two; assumption.
  - apply (enter_same n _ (p_dbcm x y)); [|apply in_degree_mean, S2]. intros i j Hi Hj _. apply p_binary_two; assumption.
  - eapply sup_dev_ext; [| |exact S3]; [|reflexivity]. intros i Hi. rewrite leave_neq by exact Hi. apply rsum_ext. intros j Hj.
    destruct (Nat.eqb_spec i j) as [->|]; [unfold dcm_prob; rewrite Nat.eqb_refl; unfold Rdiv; ring|].
    unfold real_weight, b. rewrite p_binary_prob, sum2_two by assumption. reflexivity.
  - eapply sup_dev_ext; [| |exact S4]; [|reflexivity]. intros i Hi. rewrite enter_neq by exact Hi. apply rsum_ext. intros j Hj.
    destruct (Nat.eqb_spec i j) as [->|]; [unfold dcm_prob; rewrite Nat.eqb_refl; unfold Rdiv; ring|].
    unfold real_weight, b. rewrite p_binary_prob, sum2_two by auto. reflexivity.
Qed.
Lemma sparse_given_nothing_dir g c o o' a : c_model c = "crema-sparse"%string -> c_adjacency c = AdjMatrix a ->
  d_solve_tool g c o = (o', None) ->
  forall G N cpu out seed entropy s0 choice, top_seed G seed entropy = Some s0 -> d_ensemble_sampler G N cpu out seed entropy choice g o' = Some [].
Proof.
  intros Hm Ha H G N cpu out seed entropy s0 choice HS. assert (HM : In (c_model c) ["crema"; "crema-sparse"]%string) by (right; left; symmetry; exact Hm).
  destruct (d_crema_left g c o o' HM H) as (o1 & H1 & L & _ & Gv & _).
  destruct (d_adj_matrix _ _ _ _ _ Ha H1) as (_ & J2 & _). rewrite J2 in Gv.
  unfold d_ensemble_sampler. rewrite L, Gv, Hm. cbn [among existsb String.eqb Ascii.eqb Bool.eqb orb andb].
  unfold ensemble_sampler. rewrite HS. destruct (draw_seeds G N s0). reflexivity.
Qed.
