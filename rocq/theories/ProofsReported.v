(** What [ensemble_sampler] draws from after a completed [solve_tool], compared with the
    error that call reported: undirected networks. *)
From Coq Require Import Reals List Arith Lra Lia Bool String ZArith Permutation.
From Coquelicot Require Import Coquelicot.
From Verif Require Import Base SpecDeriv SpecGraph SpecDirected SpecWeighted SpecCReMa SpecEnsemble SpecNetwork SpecSolve SpecDispatch
  ModelCM ModelECM ModelDCM ModelDECM ModelCReMa ModelNetwork ModelDispatch ModelSolve ModelSampler SpecSampler SpecSamples ModelSample SpecReported
  ProofsGraph ProofsEnsemble ProofsCM ProofsMainCM ProofsECM ProofsMainECM ProofsCReMa ProofsMainCReMa ProofsSparseCReMa ProofsDirCReMa ProofsDirSparseCReMa
  ProofsUnique ProofsAdjacency ProofsEquiCReMa WitnessCReMa ProofsDispatch ProofsSolve ProofsSolveU ProofsSampler ProofsSamples.
Local Open Scope R_scope.
Import ListNotations.

(** * Sums over pairs *)
Lemma nth_array n v i : (i < n)%nat -> nth i (array n v) 0 = v i.
Proof. intros H. unfold array. rewrite (nth_indep _ 0 (v 0%nat)) by (rewrite map_length, seq_length; exact H). rewrite map_nth, seq_nth by exact H. reflexivity. Qed.
Lemma length_array n v : List.length (array n v) = n.
Proof. unfold array. rewrite map_length, seq_length. reflexivity. Qed.
Lemma lsum_filter {A} (P : A -> bool) l f : lsum (filter P l) f = lsum l (fun a => if P a then f a else 0).
Proof. induction l as [|a l IH]; [reflexivity|]. cbn [filter lsum]. destruct (P a); cbn [lsum]; rewrite IH; ring. Qed.
Lemma touch_lt n q i : (i < n)%nat -> touching (lt_pairs n) q i = rsum n (fun j => if Nat.eqb i j then 0 else q (Nat.min i j) (Nat.max i j)).
Proof.
  intros Hi. unfold touching. rewrite (lsum_perm_any _ _ _ (lt_upairs n)). unfold upairs. rewrite lsum_flat_map, lsum_seq.
  rewrite <- (hit_triangle n i q Hi). apply rsum_ext. intros j Hj. rewrite lsum_map, lsum_seq. apply rsum_ext. intros k Hk. cbn [fst snd].
  unfold hit. destruct (Nat.eqb_spec k i), (Nat.eqb_spec j i); cbn [orb]; try lia; ring.
Qed.
Lemma leave_neq n q i : (i < n)%nat -> leaving (neq_pairs n) q i = rsum n (fun j => if Nat.eqb i j then 0 else q i j).
Proof.
  intros Hi. unfold leaving. rewrite (lsum_perm_any _ _ _ (neq_dpairs n)). unfold dpairs. rewrite lsum_flat_map, lsum_seq.
  rewrite <- (rsum_single n i (fun k => rsum n (fun j => if Nat.eqb k j then 0 else q k j)) Hi). apply rsum_ext. intros k Hk.
  rewrite lsum_map, lsum_filter, lsum_seq. cbn [fst snd]. destruct (Nat.eqb_spec k i).
  - apply rsum_ext. intros j _. destruct (Nat.eqb k j); reflexivity.
  - apply rsum_zero. intros j _. destruct (Nat.eqb k j); reflexivity.
Qed.
Lemma enter_neq n q j : (j < n)%nat -> entering (neq_pairs n) q j = rsum n (fun i => if Nat.eqb j i then 0 else q i j).
Proof.
  intros Hj. unfold entering. rewrite (lsum_perm_any _ _ _ (neq_dpairs n)). unfold dpairs. rewrite lsum_flat_map, lsum_seq. apply rsum_ext. intros i Hi.
  rewrite lsum_map, lsum_filter, lsum_seq. cbn [fst snd].
  rewrite <- (rsum_single n j (fun k => if Nat.eqb j i then 0 else q i j) Hj). apply rsum_ext. intros k _.
  destruct (Nat.eqb_spec k j) as [->|]; [|destruct (negb _); reflexivity]. rewrite (Nat.eqb_sym i j). destruct (Nat.eqb j i); reflexivity.
Qed.
Lemma touch_neq n q i : (i < n)%nat -> touching (neq_pairs n) q i = leaving (neq_pairs n) q i + entering (neq_pairs n) q i.
Proof.
  intros Hi. unfold touching, leaving, entering. rewrite <- lsum_plus. apply lsum_ext. intros [a b] H. apply in_neq_pairs in H. cbn [fst snd].
  destruct (Nat.eqb_spec a i), (Nat.eqb_spec b i); cbn [orb]; try lia; ring.
Qed.

(** The pairs of an edge list. *)
Definition edge_pairs (es : topology) : list (nat * nat) := map fst es.
Ltac lengths HC := intros t; pose proof (HC t) as HCt; rewrite ?lt_length, ?neq_length in HCt; unfold edge_pairs in HCt; rewrite ?map_length in HCt; exact HCt.
Lemma combine_pairs (es : topology) : combine (map (fun e => fst (fst e)) es) (map (fun e => snd (fst e)) es) = edge_pairs es.
Proof. induction es as [|[[i j] w] es IH]; [reflexivity|]. cbn. rewrite IH. reflexivity. Qed.
Lemma combine_weights (es : topology) (p : nat -> nat -> R) : (forall i j w, In (i, j, w) es -> w = p i j) ->
  combine (edge_pairs es) (map snd es) = map (fun e => (e, p (fst e) (snd e))) (edge_pairs es).
Proof.
  induction es as [|[[i j] w] es IH]; intros H; [reflexivity|]. cbn. rewrite (H i j w (or_introl eq_refl)). f_equal. apply IH. intros; apply H; right; assumption.
Qed.
Lemma lsum_edge_pairs es f : lsum (edge_pairs es) f = esum es (fun i j _ => f (i, j)).
Proof. unfold edge_pairs, esum. rewrite lsum_map. apply lsum_ext. intros [[i j] w] _. reflexivity. Qed.
Lemma triu_once n p : hollow p -> once_und n (edge_pairs (triu_edges n p)).
Proof.
  intros Hh. split.
  - apply NoDup_map_inj_in; [apply NoDup_triu|]. intros [[a b] w] [[a' b'] w'] H1 H2 E. cbn in E. injection E as <- <-.
    apply in_triu in H1. apply in_triu in H2. destruct H1 as (_ & -> & _), H2 as (_ & -> & _). reflexivity.
  - intros i j H. apply in_map_iff in H. destruct H as ([[a b] w] & E & H). cbn in E. injection E as -> ->. apply in_triu in H.
    destruct H as ([H1 H2] & _ & Z). destruct (Nat.eq_dec i j) as [->|]; [exfalso; apply Z, Hh|lia].
Qed.
Lemma lt_once n : once_und n (lt_pairs n).
Proof. split; [apply NoDup_lt|]. intros i j. apply in_lt_pairs. Qed.
Lemma neq_once n : once_dir n (neq_pairs n).
Proof. split; [apply NoDup_neq|]. intros i j H. apply in_neq_pairs in H. tauto. Qed.
(** Pairs of probability zero add nothing. *)
Lemma touch_triu n p q i : hollow p -> (forall a b, p a b = 0 -> q a b = 0) -> (i < n)%nat ->
  touching (edge_pairs (triu_edges n p)) q i = rsum n (fun j => if Nat.eqb i j then 0 else q (Nat.min i j) (Nat.max i j)).
Proof.
  intros Hh Hq Hi. unfold touching. rewrite lsum_edge_pairs. cbn [fst snd].
  rewrite (esum_ext _ _ (fun a b w => hit a b i * (if Req_EM_T w 0 then 0 else q a b))).
  - rewrite (esum_triu_hollow n p (fun a b w => hit a b i * (if Req_EM_T w 0 then 0 else q a b))).
    + rewrite <- (hit_triangle n i q Hi). apply rsum_ext. intros b _. apply rsum_ext. intros a _. destruct (Req_EM_T (p a b) 0) as [Z|Z]; [rewrite (Hq a b Z)|]; reflexivity.
    + intros a b. destruct (Req_EM_T 0 0); [ring|lra].
    + intros a _. apply Hh.
  - intros a b w H. apply in_triu in H. destruct H as ([H1 H2] & -> & Z). destruct (Req_EM_T (p a b) 0); [contradiction|].
    assert (a <> b) by (intros ->; apply Z, Hh). unfold hit. destruct (Nat.eqb_spec a i), (Nat.eqb_spec b i); cbn [orb]; try lia; ring.
Qed.

(** * What is left of a completed call *)
Lemma u_error_given g o o' r : u_solution_error g o = (o', r) -> us_given o' = us_given o.
Proof.
  intros H. unfold u_solution_error, u_error_strength, u_error_degree in H.
  repeat match type of H with
  | context [match ?t with _ => _ end] => match t with context [match _ with _ => _ end] => fail 1 | _ => destruct t eqn:? end
  end; cbn [us_x us_y us_beta us_adj us_given us_sparse us_last us_ek us_set_ek us_set_es us_set_err us_set_errs] in *; try discriminate;
  injection H as <- <-; cbn; congruence.
Qed.
Lemma u_tool_last g c o o' : In (c_model c) ["cm"; "cm_exp"; "ecm"; "ecm_exp"]%string -> u_solve_tool g c o = (o', None) -> us_last o' = Some (c_model c).
Proof.
  intros Hm H. unfold u_solve_tool in H. apply andthen_inv in H. destruct H as (o1 & H1 & H).
  assert (HS : u_solve_problem g (c_model c) (c_method c) (c_guess c) (c_out c) o = (o1, None)).
  { destruct Hm as [E|[E|[E|[E|[]]]]]; rewrite <- E in H1 |- *; cbn [among existsb String.eqb Ascii.eqb Bool.eqb orb] in H1; exact H1. }
  destruct (u_error_frame _ _ _ _ H) as (_ & _ & _ & _ & _ & _ & F & _). rewrite F. clear H F H1.
  assert (D : In (c_model c) ["cm"; "cm_exp"]%string \/ In (c_model c) ["ecm"; "ecm_exp"]%string) by (cbn in Hm |- *; tauto).
  destruct D as [D|D].
  - apply u_solve_cm in HS; [|exact D]. destruct HS as (d & v & _ & _ & ->). reflexivity.
  - apply u_solve_ecm in HS; [|exact D]. destruct HS as (d & v & HS). apply HS.
Qed.
Lemma u_crema_left g c o o' : In (c_model c) ["crema"; "crema-sparse"]%string -> u_solve_tool g c o = (o', None) ->
  exists o1, u_set_adjacency g c o = (o1, None) /\ us_last o' = Some (c_model c) /\ us_adj o' = us_adj o1 /\ us_given o' = us_given o1 /\ us_x o' = us_x o1.
Proof.
  intros Hm H. destruct (u_tool_crema _ _ _ _ Hm H) as (o1 & H1 & H2).
  apply u_crema_inv in H1; [|exact Hm]. destruct H1 as (o2 & d & v & v0 & adj & HA & _ & Hv & HJ & ->).
  destruct (u_error_frame _ _ _ _ H2) as (F1 & _ & _ & _ & _ & _ & F2 & F3). pose proof (u_error_given _ _ _ _ H2) as F4.
  exists o2. split; [exact HA|]. rewrite F1, F2, F3, F4. repeat split.
Qed.

(** * Means of a pair *)
Lemma minmax (f : nat -> nat -> R) i j : (forall i j, f i j = f j i) -> f (Nat.min i j) (Nat.max i j) = f i j.
Proof. intros H. destruct (Nat.lt_ge_cases i j); [rewrite Nat.min_l, Nat.max_r by lia; reflexivity|rewrite Nat.min_r, Nat.max_l by lia; apply H]. Qed.
Lemma ubcm_minmax x i j : p_ubcm x i j = p_ubcm x (Nat.min i j) (Nat.max i j).
Proof. symmetry. apply (minmax (p_ubcm x)). intros p q. unfold p_ubcm. rewrite (Rmult_comm (x p)). reflexivity. Qed.
Lemma touch_same' n f p k e : (forall i j, (i < j < n)%nat -> p i j = f i j) -> (forall i j, f i j = f j i) ->
  sup_dev n (fun i => rsum n (fun j => if Nat.eqb i j then 0 else f i j)) k e -> sup_dev n (touching (lt_pairs n) p) k e.
Proof.
  intros H1 H2 S. eapply sup_dev_ext; [| |exact S]; [|reflexivity]. intros i Hi. rewrite touch_lt by exact Hi. apply rsum_ext. intros j Hj.
  destruct (Nat.eqb_spec i j); [reflexivity|]. rewrite H1 by lia. symmetry. apply minmax, H2.
Qed.
Lemma touch_same n p f k e : (forall i j, (i < j < n)%nat -> p i j = f i j) -> (forall i j, f i j = f j i) ->
  sup_dev n (fun i => mean_undirected n f (fun a => deg n a i)) k e -> sup_dev n (touching (lt_pairs n) p) k e.
Proof.
  intros H1 H2 S. apply (touch_same' n f); [exact H1|exact H2|]. eapply sup_dev_ext; [| |exact S]; [|reflexivity]. intros i Hi. apply mean_undirected_deg; [exact Hi|exact H2].
Qed.
Lemma touch_weights n a q r i : hollow a -> (forall u v, (u < v < n)%nat -> (a u v = 0 -> r u v = 0) /\ (a u v <> 0 -> q u v = r u v)) -> (i < n)%nat ->
  touching (edge_pairs (triu_edges n a)) q i = rsum n (fun j => if Nat.eqb i j then 0 else r (Nat.min i j) (Nat.max i j)).
Proof.
  intros Hh H Hi. set (q' := fun u v => if Req_EM_T (a u v) 0 then 0 else q u v).
  transitivity (touching (edge_pairs (triu_edges n a)) q' i).
  - unfold touching. apply lsum_ext. intros [u v] HI. apply in_map_iff in HI. destruct HI as ([[u' v'] w] & E & HI). cbn in E. injection E as -> ->.
    apply in_triu in HI. cbn [fst snd]. unfold q'. destruct (Req_EM_T (a u v) 0); [exfalso; tauto|reflexivity].
  - rewrite (touch_triu n a q'); [|exact Hh|intros u v Z; unfold q'; destruct (Req_EM_T (a u v) 0); [reflexivity|contradiction]|exact Hi].
    apply rsum_ext. intros j Hj. destruct (Nat.eqb_spec i j); [reflexivity|]. unfold q'. destruct (H (Nat.min i j) (Nat.max i j) ltac:(lia)) as [Z1 Z2].
    destruct (Req_EM_T (a (Nat.min i j) (Nat.max i j)) 0) as [Z|Z]; [symmetry; apply Z1, Z|apply Z2, Z].
Qed.
Lemma enh_link z y : 0 <= z -> 0 <= y < 1 -> 1 - q_enh z y 0 = link_mean z y.
Proof.
  intros Hz Hy. unfold q_enh, link_mean, linked. cbn. assert (0 <= z * y) by (apply Rmult_le_pos; lra). field. lra.
Qed.
Lemma enh_weight z y : 0 <= z -> 0 <= y < 1 -> link_mean z y / (1 - y) = weight_mean z y.
Proof.
  intros Hz Hy. unfold link_mean, weight_mean. assert (0 <= z * y) by (apply Rmult_le_pos; lra). field. lra.
Qed.
Lemma listed_files G out N s0 (b p : nat -> nat -> R) pairs :
  files_of G out N s0 RealWeighted (listed_outcome G b) (map (fun e => (e, p (fst e) (snd e))) pairs) = files_of G out N s0 RealWeighted (real_outcome G p b) pairs.
Proof. unfold files_of. rewrite map_length. apply map_ext. intros t. rewrite listed_outcomes. reflexivity. Qed.

(** * The calls *)

Lemma mul2_array n x y i j : (i < n)%nat -> (j < n)%nat -> mul2 (array n x) (array n y) i j = x i * y j.
Proof. intros Hi Hj. unfold mul2. rewrite !nth_array by assumption. reflexivity. Qed.
Lemma sum2_array n x y i j : (i < n)%nat -> (j < n)%nat -> sum2 (array n x) (array n y) i j = x i + y j.
Proof. intros Hi Hj. unfold sum2. rewrite !nth_array by assumption. reflexivity. Qed.
Lemma p_binary_array n x y i j : (i < n)%nat -> (j < n)%nat -> p_binary (array n x) (array n y) i j = x i * y j / (1 + x i * y j).
Proof. intros Hi Hj. unfold p_binary. rewrite !mul2_array by assumption. reflexivity. Qed.

Lemma reported_cm g c o o' : (0 < un_n g)%nat -> us_beta o = None -> In (c_model c) ["cm"; "cm_exp"]%string ->
  u_solve_tool g c o = (o', None) ->
  (forall x, us_x o' = Some x -> c_model c = "cm"%string -> forall i j, (i < j < un_n g)%nat -> 0 <= x i * x j) ->
  exists pairs p e, u_draws g o' Unweighted (fun G => bare_outcome G p) pairs /\
    once_und (un_n g) pairs /\ us_err o' = Some e /\ sup_dev (un_n g) (touching pairs p) (at_list (un_dseq g)) e.
Proof.
  intros Hn Hb Hm H Hx. destruct (u_error_cm g c o o' Hn Hb Hm H) as (v & cls & x & e & Hv & X & E & _ & HV & S).
  assert (HL : us_last o' = Some (c_model c)) by (apply (u_tool_last g c o); [cbn in Hm |- *; tauto|exact H]).
  set (n := un_n g) in *. exists (lt_pairs n), (p_binary (array n x) (array n x)), e.
  split; [|split; [apply lt_once|split; [exact E|]]].
  - intros G N cpu out seed entropy s0 choice HG HS HC. unfold u_ensemble_sampler. rewrite HL, X. fold n.
    replace (among (c_model c) ["cm"; "cm_exp"]%string) with true by (destruct Hm as [M|[M|[]]]; rewrite <- M; reflexivity).
    rewrite (sampler_cm G _ N cpu out seed entropy choice s0 HG); cbn [v_last_model v_x attributes]; rewrite ?length_array.
    + reflexivity.
    + exact Hm.
    + intros i j Hij. rewrite mul2_array by lia. destruct Hm as [M|[M|[]]].
      * apply (Hx x X); [symmetry; exact M|exact Hij].
      * rewrite !HV. rewrite <- M. cbn [String.eqb Ascii.eqb Bool.eqb]. left. apply Rmult_lt_0_compat; apply exp_pos.
    + lengths HC.
    + exact HS.
  - apply (touch_same n _ (p_ubcm x)); [| |exact S].
    + intros i j Hij. rewrite p_binary_array by lia. reflexivity.
    + intros i j. unfold p_ubcm. rewrite (Rmult_comm (x j)). reflexivity.
Qed.
Lemma reported_ecm g c o o' : (0 < un_n g)%nat -> In (c_model c) ["ecm"; "ecm_exp"]%string ->
  u_solve_tool g c o = (o', None) ->
  (forall x y, us_x o' = Some x -> us_y o' = Some y -> forall i j, (i < j < un_n g)%nat ->
     (c_model c = "ecm"%string -> 0 <= x i * x j /\ 0 <= y i * y j) /\ y i * y j < 1) ->
  exists pairs p y ek es, u_draws g o' IntWeighted (fun G => int_outcome G p y) pairs /\
    once_und (un_n g) pairs /\ us_err o' = Some (Rmax es ek) /\
    sup_dev (un_n g) (touching pairs p) (at_list (un_dseq g)) ek /\ sup_dev (un_n g) (touching pairs (int_weight p y)) (un_str g) es.
Proof.
  intros Hn Hm H Hx. destruct (u_error_ecm g c o o' Hn Hm H) as (v & x & y & ek & es & Hv & X & Y & E & VX & VY & S1 & S2).
  assert (HL : us_last o' = Some (c_model c)) by (apply (u_tool_last g c o); [cbn in Hm |- *; tauto|exact H]).
  specialize (Hx x y X Y). set (n := un_n g) in *.
  assert (HD : forall i j, (i < j < n)%nat -> 0 <= x i * x j /\ 0 <= y i * y j < 1).
  { intros i j Hij. destruct (Hx i j Hij) as [D1 D2]. destruct Hm as [M|[M|[]]].
    - destruct (D1 (eq_sym M)). lra.
    - rewrite (VX i), (VX j). rewrite (VY i), (VY j) in *. rewrite <- M in *. cbn [String.eqb Ascii.eqb Bool.eqb] in *.
      split; [left; apply Rmult_lt_0_compat; apply exp_pos|]. split; [left; apply Rmult_lt_0_compat; apply exp_pos|exact D2]. }
  exists (lt_pairs n), (p_enh (mul2 (array n x) (array n x)) (mul2 (array n y) (array n y))), (mul2 (array n y) (array n y)), ek, es.
  split; [|split; [apply lt_once|split; [exact E|]]].
  - intros G N cpu out seed entropy s0 choice HG HS HC. unfold u_ensemble_sampler. rewrite HL, X, Y. fold n.
    replace (among (c_model c) ["cm"; "cm_exp"]%string) with false by (destruct Hm as [M|[M|[]]]; rewrite <- M; reflexivity).
    replace (among (c_model c) ["ecm"; "ecm_exp"]%string) with true by (destruct Hm as [M|[M|[]]]; rewrite <- M; reflexivity).
    rewrite (sampler_ecm G _ N cpu out seed entropy choice s0 HG); cbn [v_last_model v_x v_y attributes]; rewrite ?length_array.
    + reflexivity.
    + exact Hm.
    + reflexivity.
    + intros i j Hij. rewrite !mul2_array by lia. apply HD, Hij.
    + lengths HC.
    + exact HS.
  - assert (HP : forall i j, (i < j < n)%nat -> p_enh (mul2 (array n x) (array n x)) (mul2 (array n y) (array n y)) i j = link_mean (x i * x j) (y i * y j)).
    { intros i j Hij. unfold p_enh. rewrite !mul2_array by lia. apply enh_link. apply HD, Hij. apply HD, Hij. }
    split.
    + apply (touch_same' n (fun i j => link_mean (x i * x j) (y i * y j))); [exact HP| |exact S1].
      intros i j. rewrite (Rmult_comm (x j)), (Rmult_comm (y j)). reflexivity.
    + apply (touch_same' n (fun i j => weight_mean (x i * x j) (y i * y j))); [| |exact S2].
      * intros i j Hij. unfold int_weight. rewrite HP, mul2_array by lia. apply enh_weight; apply HD, Hij.
      * intros i j. rewrite (Rmult_comm (x j)), (Rmult_comm (y j)). reflexivity.
Qed.

(** CReMa on a given matrix: the pairs of its non-zero entries, all of them written. *)
Lemma crema_given_sample g c o o' a b : c_model c = "crema"%string -> c_adjacency c = AdjMatrix a -> hollow a ->
  u_solve_tool g c o = (o', None) -> us_beta o' = Some b -> positive_rates (un_n g) a b ->
  u_draws g o' RealWeighted (fun G => sure_outcome G (sum2 (array (un_n g) b) (array (un_n g) b))) (edge_pairs (triu_edges (un_n g) a)).
Proof.
  intros Hm Ha Hh H B HP. assert (HM : In (c_model c) ["crema"; "crema-sparse"]%string) by (left; symmetry; exact Hm).
  destruct (u_crema_left g c o o' HM H) as (o1 & H1 & L & A & Gv & _).
  destruct (u_adj_matrix _ _ _ _ _ Ha H1) as (J1 & J2 & _). rewrite J1 in A. rewrite J2 in Gv.
  set (n := un_n g) in *. set (es := triu_edges n a) in *.
  intros G N cpu out seed entropy s0 choice HG HS HC. unfold u_ensemble_sampler. rewrite L, A, Gv, B, Hm. cbn [among existsb String.eqb Ascii.eqb Bool.eqb orb andb]. fold n.
  rewrite (sampler_crema_given G false _ N cpu out seed entropy choice s0 (map (fun e => fst (fst e)) es) (map (fun e => snd (fst e)) es) (map snd es) HG);
    cbn [v_last_model v_adjacency_given v_adjacency_crema v_b_out rates_in attributes unpacked]; rewrite ?map_length, ?length_array, ?combine_pairs; try reflexivity.
  - intros i j Hij. apply (proj2 (triu_once n a Hh)) in Hij as Hl. split; [lia|]. split; [lia|]. rewrite sum2_array by lia.
    apply HP; [exact Hl|]. apply in_map_iff in Hij. destruct Hij as ([[p q] w] & Q & Hij). cbn in Q. injection Q as -> ->. apply in_triu in Hij. tauto.
  - lengths HC.
  - exact HS.
Qed.
(** CReMa on a matrix of zeros and ones. *)
Lemma reported_crema_given g c o o' a : (0 < un_n g)%nat -> c_model c = "crema"%string ->
  c_adjacency c = AdjMatrix a -> hollow a -> (forall i j, (i < j < un_n g)%nat -> a i j = 0 \/ a i j = 1) ->
  u_solve_tool g c o = (o', None) -> (forall b, us_beta o' = Some b -> positive_rates (un_n g) a b) ->
  exists pairs b e, u_draws g o' RealWeighted (fun G => sure_outcome G b) pairs /\
    once_und (un_n g) pairs /\ (forall i j, (i < j < un_n g)%nat -> In (i, j) pairs <-> a i j = 1) /\
    us_err o' = Some e /\ sup_dev (un_n g) (touching pairs (real_weight certain b)) (un_str g) e.
Proof.
  intros Hn Hm Ha Hh H01 H HP. assert (HM : In (c_model c) ["crema"; "crema-sparse"]%string) by (left; symmetry; exact Hm).
  destruct (u_error_crema_matrix g c o o' a Hn HM Ha Hh H HP) as (v & e & Hv & B & E & S). specialize (HP _ B).
  pose proof (crema_given_sample g c o o' a (o_x v) Hm Ha Hh H B HP) as HF.
  set (n := un_n g) in *. set (b := o_x v) in *. set (es := triu_edges n a) in *.
  exists (edge_pairs es), (sum2 (array n b) (array n b)), e. split; [|split; [apply triu_once, Hh|split; [|split; [exact E|]]]].
  - exact HF.
  - intros i j Hij. unfold edge_pairs. rewrite in_map_iff. split.
    + intros ([[p q] w] & Q & HI). cbn in Q. injection Q as -> ->. apply in_triu in HI. destruct (H01 i j Hij) as [Z|Z]; [exfalso; tauto|exact Z].
    + intros Z. exists (i, j, 1). split; [reflexivity|]. apply in_triu. rewrite Z. split; [lia|]. split; [reflexivity|lra].
  - eapply sup_dev_ext; [| |exact S]; [|reflexivity]. intros i Hi. unfold es.
    rewrite (touch_weights n a (real_weight certain (sum2 (array n b) (array n b))) (fun p q => a p q / (b p + b q))); [|exact Hh| |exact Hi].
    + unfold crema_mean. apply rsum_ext. intros j Hj. destruct (Nat.eqb_spec i j); [reflexivity|].
      destruct (Nat.lt_ge_cases i j); [rewrite Nat.min_l, Nat.max_r by lia; reflexivity|rewrite Nat.min_r, Nat.max_l by lia; rewrite (Rplus_comm (b j)); reflexivity].
    + intros p q Hpq. unfold real_weight, certain. rewrite sum2_array by lia. destruct (H01 p q Hpq) as [Z|Z]; rewrite Z; split; intros; [unfold Rdiv; ring|lra|lra|reflexivity].
Qed.
(** CReMa on the probabilities of a binary model. *)
Lemma reported_crema_name g c o o' a : (0 < un_n g)%nat -> c_model c = "crema"%string ->
  c_adjacency c = AdjName a -> In a ["cm"; "cm_exp"]%string -> u_solve_tool g c o = (o', None) ->
  (forall x b, us_x o' = Some x -> us_beta o' = Some b -> (forall i, (i < un_n g)%nat -> 0 <= x i) /\ positive_rates (un_n g) (p_ubcm x) b) ->
  exists pairs p b ek es, u_draws g o' RealWeighted (fun G => real_outcome G p b) pairs /\
    once_und (un_n g) pairs /\ us_err o' = Some (Rmax es ek) /\
    sup_dev (un_n g) (touching pairs p) (at_list (un_dseq g)) ek /\ sup_dev (un_n g) (touching pairs (real_weight p b)) (un_str g) es.
Proof.
  intros Hn Hm Ha Hna H HP. assert (HM : In (c_model c) ["crema"; "crema-sparse"]%string) by (left; symmetry; exact Hm).
  destruct (u_error_crema_name g c o o' a Hn HM Ha Hna H HP) as (va & v & cls & x & ek & es & Hva & Hv & X & B & E & _ & _ & S1 & S2).
  destruct (HP _ _ X B) as [HX HR].
  destruct (u_crema_left g c o o' HM H) as (o1 & H1 & L & A & Gv & X1).
  destruct (u_adj_name _ _ _ _ _ Ha Hna H1) as (va' & _ & J1 & J2 & _ & J4). rewrite Hm in J4. cbn [String.eqb Ascii.eqb Bool.eqb] in J4.
  rewrite X, J1 in X1. injection X1 as EX. rewrite <- EX in J4. rewrite J4 in A. rewrite J2 in Gv. clear J1 J2 J4 EX.
  set (n := un_n g) in *. set (b := o_x v) in *. set (es0 := triu_edges n (pmatrix_cm x)) in *.
  exists (edge_pairs es0), (pmatrix_cm x), (sum2 (array n b) (array n b)), ek, es.
  split; [|split; [apply triu_once, pmatrix_hollow|split; [exact E|split]]].
  - intros G N cpu out seed entropy s0 choice HG HS HC. unfold u_ensemble_sampler. rewrite L, A, Gv, B, Hm. cbn [among existsb String.eqb Ascii.eqb Bool.eqb orb andb]. fold n.
    rewrite (sampler_crema_prob G false _ N cpu out seed entropy choice s0 (map (fun e => fst (fst e)) es0) (map (fun e => snd (fst e)) es0) (map snd es0) HG);
      cbn [v_last_model v_adjacency_given v_adjacency_crema v_b_out rates_in attributes unpacked]; rewrite ?map_length, ?length_array, ?combine_pairs; try reflexivity.
    + rewrite (combine_weights es0 (pmatrix_cm x)) by (intros p q w HI; apply in_triu in HI; tauto). rewrite listed_files. reflexivity.
    + intros i j Hij. apply (proj2 (triu_once n (pmatrix_cm x) (pmatrix_hollow x))) in Hij as Hl. split; [lia|]. split; [lia|]. rewrite sum2_array by lia.
      apply HR; [exact Hl|]. apply in_map_iff in Hij. destruct Hij as ([[p q] w] & Q & Hij). cbn in Q. injection Q as -> ->. apply in_triu in Hij.
      rewrite <- pmatrix_ubcm by lia. tauto.
    + lengths HC.
    + exact HS.
  - eapply sup_dev_ext; [| |exact S1]; [|reflexivity]. intros i Hi. unfold es0.
    rewrite (touch_triu n (pmatrix_cm x) (pmatrix_cm x)) by (auto using pmatrix_hollow). rewrite mean_undirected_deg; [|exact Hi|].
    + apply rsum_ext. intros j Hj. destruct (Nat.eqb_spec i j); [reflexivity|]. rewrite pmatrix_ubcm by lia. apply ubcm_minmax.
    + intros p q. unfold p_ubcm. rewrite (Rmult_comm (x p)). reflexivity.
  - eapply sup_dev_ext; [| |exact S2]; [|reflexivity]. intros i Hi. unfold es0.
    rewrite (touch_triu n (pmatrix_cm x)) ; [|apply pmatrix_hollow|intros p q Z; unfold real_weight; rewrite Z; unfold Rdiv; ring|exact Hi].
    unfold crema_mean. apply rsum_ext. intros j Hj. destruct (Nat.eqb_spec i j); [reflexivity|]. unfold real_weight. rewrite pmatrix_ubcm, sum2_array by lia.
    f_equal. destruct (Nat.lt_ge_cases i j); [rewrite Nat.min_l, Nat.max_r by lia; reflexivity|rewrite Nat.min_r, Nat.max_l by lia; apply Rplus_comm].
Qed.
(** The sparse version writes both orders of each pair: the mean strengths of a file are
    twice those of the model. *)
Lemma reported_sparse g c o o' a : (0 < un_n g)%nat -> c_model c = "crema-sparse"%string ->
  c_adjacency c = AdjName a -> In a ["cm"; "cm_exp"]%string -> u_solve_tool g c o = (o', None) ->
  (forall x b, us_x o' = Some x -> us_beta o' = Some b -> (forall i, (i < un_n g)%nat -> 0 <= x i) /\
     forall i j, (i < j < un_n g)%nat -> 0 < b i + b j) ->
  exists pairs p b ek es, u_draws g o' RealWeighted (fun G => real_outcome G p b) pairs /\
    once_dir (un_n g) pairs /\ us_err o' = Some (Rmax es ek) /\
    sup_dev (un_n g) (fun i => touching pairs p i / 2) (at_list (un_dseq g)) ek /\
    sup_dev (un_n g) (fun i => touching pairs (real_weight p b) i / 2) (un_str g) es.
Proof.
  intros Hn Hm Ha Hna H HP. assert (HM : In (c_model c) ["crema"; "crema-sparse"]%string) by (right; left; symmetry; exact Hm).
  destruct (u_error_crema_name g c o o' a Hn HM Ha Hna H) as (va & v & cls & x & ek & es & Hva & Hv & X & B & E & _ & _ & S1 & S2).
  { intros x b X B. destruct (HP x b X B) as [P1 P2]. split; [exact P1|]. intros i j Hij _. apply P2, Hij. }
  destruct (HP _ _ X B) as [HX HR].
  destruct (u_crema_left g c o o' HM H) as (o1 & H1 & L & A & Gv & X1).
  destruct (u_adj_name _ _ _ _ _ Ha Hna H1) as (va' & _ & J1 & J2 & _ & J4). rewrite Hm in J4. cbn [String.eqb Ascii.eqb Bool.eqb] in J4.
  rewrite X, J1 in X1. injection X1 as EX. rewrite <- EX in J4. rewrite J4 in A. rewrite J2 in Gv. clear J1 J2 J4 EX.
  set (n := un_n g) in *. set (b := o_x v) in *.
  exists (neq_pairs n), (p_binary (array n x) (array n x)), (sum2 (array n b) (array n b)), ek, es.
  split; [|split; [apply neq_once|split; [exact E|split]]].
  - intros G N cpu out seed entropy s0 choice HG HS HC. unfold u_ensemble_sampler. rewrite L, A, Gv, B, Hm. cbn [among existsb String.eqb Ascii.eqb Bool.eqb orb andb]. fold n.
    rewrite (sampler_sparse_und G _ N cpu out seed entropy choice s0 (array n x) HG);
      cbn [v_last_model v_adjacency_given v_adjacency_crema v_b_out attributes unpacked]; rewrite ?length_array; try reflexivity.
    + intros i j Hi Hj Hij. rewrite mul2_array, sum2_array by lia. split; [apply Rmult_le_pos; apply HX; lia|].
      destruct (Nat.lt_ge_cases i j); [apply HR; lia|rewrite Rplus_comm; apply HR; lia].
    + lengths HC.
    + exact HS.
  - eapply sup_dev_ext; [| |exact S1]; [|reflexivity]. intros i Hi. rewrite touch_neq, leave_neq, enter_neq by exact Hi.
    rewrite mean_undirected_deg; [|exact Hi|intros p q; unfold p_ubcm; rewrite (Rmult_comm (x p)); reflexivity].
    rewrite (rsum_ext n (fun j => if Nat.eqb i j then 0 else p_binary (array n x) (array n x) j i) (fun j => if Nat.eqb i j then 0 else p_ubcm x i j)).
    rewrite (rsum_ext n (fun j => if Nat.eqb i j then 0 else p_binary (array n x) (array n x) i j) (fun j => if Nat.eqb i j then 0 else p_ubcm x i j)).
    + field.
    + intros j Hj. rewrite p_binary_array by assumption. reflexivity.
    + intros j Hj. rewrite p_binary_array by assumption. unfold p_ubcm. rewrite (Rmult_comm (x j)). reflexivity.
  - eapply sup_dev_ext; [| |exact S2]; [|reflexivity]. intros i Hi. rewrite touch_neq, leave_neq, enter_neq by exact Hi. unfold crema_mean, real_weight.
    rewrite (rsum_ext n (fun j => if Nat.eqb i j then 0 else p_binary (array n x) (array n x) j i / sum2 (array n b) (array n b) j i)
      (fun j => if Nat.eqb i j then 0 else p_ubcm x (Nat.min i j) (Nat.max i j) / (b i + b j))).
    rewrite (rsum_ext n (fun j => if Nat.eqb i j then 0 else p_binary (array n x) (array n x) i j / sum2 (array n b) (array n b) i j)
      (fun j => if Nat.eqb i j then 0 else p_ubcm x (Nat.min i j) (Nat.max i j) / (b i + b j))).
    + field.
    + intros j Hj. destruct (Nat.eqb i j); [reflexivity|]. rewrite p_binary_array, sum2_array by assumption. rewrite <- ubcm_minmax. reflexivity.
    + intros j Hj. destruct (Nat.eqb i j); [reflexivity|]. rewrite p_binary_array, sum2_array by assumption. rewrite <- ubcm_minmax. unfold p_ubcm.
      rewrite (Rmult_comm (x j)), (Rplus_comm (b j)). reflexivity.
Qed.
(** A matrix given to the sparse version: nothing is written, whatever the number of files. *)
Lemma sparse_given_nothing g c o o' a : c_model c = "crema-sparse"%string -> c_adjacency c = AdjMatrix a ->
  u_solve_tool g c o = (o', None) ->
  forall G N cpu out seed entropy s0 choice, top_seed G seed entropy = Some s0 -> u_ensemble_sampler G N cpu out seed entropy choice g o' = Some [].
Proof.
  intros Hm Ha H G N cpu out seed entropy s0 choice HS. assert (HM : In (c_model c) ["crema"; "crema-sparse"]%string) by (right; left; symmetry; exact Hm).
  destruct (u_crema_left g c o o' HM H) as (o1 & H1 & L & _ & Gv & _).
  destruct (u_adj_matrix _ _ _ _ _ Ha H1) as (_ & J2 & _). rewrite J2 in Gv.
  unfold u_ensemble_sampler. rewrite L, Gv, Hm. cbn [among existsb String.eqb Ascii.eqb Bool.eqb orb andb].
  unfold ensemble_sampler. rewrite HS. destruct (draw_seeds G N s0). reflexivity.
Qed.
(** A method that does not exist: the call of the enhanced model fails, and the sampler then
    draws from its initial guess. *)
Lemma failed_then_sampled g c o z : In (c_model c) ["ecm"; "ecm_exp"]%string -> c_guess c = Some z -> (forall d, u_dispatch (c_model c) (c_method c) None <> inl d) ->
  (forall i j, (i < j < un_n g)%nat -> 0 <= z i * z j /\ 0 <= z (i + un_n g)%nat * z (j + un_n g)%nat < 1) ->
  exists o' e x y, u_solve_tool g c o = (o', Some e) /\ us_err o' = us_err o /\ x = array (un_n g) z /\ y = array (un_n g) (drop (un_n g) z) /\
    u_draws g o' IntWeighted (fun G => int_outcome G (p_enh (mul2 x x) (mul2 y y)) (mul2 y y)) (lt_pairs (un_n g)).
Proof.
  intros Hm Hg Hd HD. set (n := un_n g) in *.
  assert (D : exists e, u_dispatch (c_model c) (c_method c) None = inr e).
  { destruct (u_dispatch (c_model c) (c_method c) None) as [d|e] eqn:E; [exfalso; exact (Hd d eq_refl)|exists e; reflexivity]. }
  destruct D as (er & D).
  assert (HT : exists o' e, u_solve_tool g c o = (o', Some e) /\ us_err o' = us_err o /\ us_last o' = Some (c_model c) /\ us_x o' = Some z /\ us_y o' = Some (drop n z)).
  { unfold u_solve_tool, u_solve_problem, u_initialize, u_set_guess, u_set_args. rewrite Hg, D.
    destruct Hm as [M|[M|[]]]; rewrite <- M; cbn [among existsb String.eqb Ascii.eqb Bool.eqb orb andb andthen fst snd ok us_set_last us_set_xy];
      destruct er; cbn; eexists; eexists; (split; [reflexivity|]); repeat split. }
  destruct HT as (o' & e & HT & HE & L & X & Y). exists o', e, (array n z), (array n (drop n z)).
  split; [exact HT|]. split; [exact HE|]. split; [reflexivity|]. split; [reflexivity|].
  intros G N cpu out seed entropy s0 choice HG HS HC. unfold u_ensemble_sampler. rewrite L, X, Y. fold n.
  replace (among (c_model c) ["cm"; "cm_exp"]%string) with false by (destruct Hm as [M|[M|[]]]; rewrite <- M; reflexivity).
  replace (among (c_model c) ["ecm"; "ecm_exp"]%string) with true by (destruct Hm as [M|[M|[]]]; rewrite <- M; reflexivity).
  rewrite (sampler_ecm G _ N cpu out seed entropy choice s0 HG); cbn [v_last_model v_x v_y attributes]; rewrite ?length_array.
  - reflexivity.
  - exact Hm.
  - reflexivity.
  - intros i j Hij. rewrite !mul2_array by lia. apply HD, Hij.
  - lengths HC.
  - exact HS.
Qed.
