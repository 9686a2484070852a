(** The files written by [ensemble_sampler], line by line. *)
From Coq Require Import Reals List Arith Bool ZArith Permutation String Lia Lra.
From Coquelicot Require Import Coquelicot.
From Verif Require Import Base SpecGraph SpecEnsemble SpecWeighted ModelDCM ModelLinsearch ModelSampler SpecSampler SpecSamples
  ProofsEnsemble ProofsSampler ProofsMainSampler ProofsSamplerLaw ProofsSamplerFiles.
Import ListNotations.
Local Open Scope R_scope.

(** * One graph *)
Lemma outcomes_cons G {A L} (f : A -> gstate G -> option L) a l s r :
  outcomes G f (a :: l) (s :: r) = match f a s with Some v => [v] | None => [] end ++ outcomes G f l r.
Proof. reflexivity. Qed.
Lemma sample_value_outcomes G {A B L} (f : A * Z -> gstate G -> option (option L * gstate G)) (idx : A -> B) (g : B -> gstate G -> option L) items :
  numpy_contract G ->
  (forall a k, In a items -> (0 <= k < 1000000)%Z -> exists s', f (a, k) (seeded G k) = Some (g (idx a) (seeded G k), s')) ->
  forall s0, exists s1, sample_value G f items s0 =
    Some (outcomes G g (map idx items) (map (seeded G) (seeds_from G (List.length items) s0)), s1).
Proof.
  intros HG. induction items as [|a items IH]; intros HF s0; [exists s0; reflexivity|].
  unfold sample_value in *. cbn [with_seeds List.length seeds_from map]. pose proof (proj1 (proj2 HG) s0) as HK. destruct (randint G s0) as [k s1]. cbn [fst snd] in *.
  destruct (IH (fun b q Hb => HF b q (or_intror Hb)) s1) as [s2 E]. destruct (with_seeds G items s1) as [tasks s3]. exists s3.
  destruct (HF a k (or_introl eq_refl) HK) as [s4 E4]. cbn [map collect snd]. rewrite E4. cbn [option_map fst]. destruct (collect _) as [e|]; [|discriminate].
  injection E as E E'. rewrite outcomes_cons. cbn [drop_none flat_map]. change (flat_map _ e) with (drop_none e). rewrite E. destruct (g (idx a) (seeded G k)); reflexivity.
Qed.
Lemma sample_graph_outcomes G {A B L} (f : A * Z -> gstate G -> option (option L * gstate G)) (idx : A -> B) (g : B -> gstate G -> option L) items pairs cpu k s c :
  numpy_contract G -> reseeds G f -> map idx items = pairs -> valid_choice G cpu (List.length pairs) c -> (0 <= k < 1000000)%Z ->
  (forall a q, In a items -> (0 <= q < 1000000)%Z -> exists s', f (a, q) (seeded G q) = Some (g (idx a) (seeded G q), s')) ->
  exists s1, sample_graph G f items cpu (Some k) s c = Some (outcomes G g pairs (pair_states G (List.length pairs) k), s1).
Proof.
  intros HG HR <- HC HK HF. rewrite map_length in *. rewrite (sample_graph_value G HG f items cpu (Some k) s c (seeded G k) HR HC (np_seed_ok G k HK)).
  unfold pair_states. apply sample_value_outcomes; assumption.
Qed.

(** * The whole call *)
Lemma write_files_outcomes G {A L} one (text : list L -> content) (f : A -> gstate G -> option L) pairs out choice :
  (forall k s i, (0 <= k < 1000000)%Z -> exists s1, one (Some k) s (choice i) = Some (text (outcomes G f pairs (pair_states G (List.length pairs) k)), s1)) ->
  forall seeds i s, (forall k, In k seeds -> (0 <= k < 1000000)%Z) ->
  write_files G one out i seeds choice s =
  Some (map (fun t => (file_name out (fst t), text (outcomes G f pairs (pair_states G (List.length pairs) (snd t))))) (combine (seq i (List.length seeds)) seeds)).
Proof.
  intros H. induction seeds as [|k seeds IH]; intros i s HS; [reflexivity|]. cbn [write_files].
  destruct (H k s i (HS k (or_introl eq_refl))) as (s1 & E). rewrite E, (IH (S i) s1 (fun q Hq => HS q (or_intror Hq))). reflexivity.
Qed.
Lemma call_outcomes G {A L} (directed : bool) v N cpu out seed entropy choice s0 one (text : list L -> content) (f : A -> gstate G -> option L) pairs :
  numpy_contract G -> top_seed G seed entropy = Some s0 ->
  (if directed then sampler_dir G v cpu else sampler_und G v cpu) = Some (Some one) ->
  (forall k s i, (0 <= k < 1000000)%Z -> exists s1, one (Some k) s (choice i) = Some (text (outcomes G f pairs (pair_states G (List.length pairs) k)), s1)) ->
  ensemble_sampler G directed v N cpu out seed entropy choice = Some (files_of G out N s0 text f pairs).
Proof.
  intros HG HS HO HF. unfold ensemble_sampler. rewrite HS, HO. pose proof (draw_seeds_eq G N s0) as D. destruct (draw_seeds G N s0) as [l s1]. cbn [fst] in D. subst l.
  rewrite (write_files_outcomes G one text f pairs out choice HF) by (intros k Hk; eapply seeds_from_range; eassumption).
  unfold files_of. rewrite seeds_from_length. reflexivity.
Qed.
Lemma tag_some G {L} (text : list L -> content) (r : option (list L * gstate G)) l s : r = Some (l, s) -> tag G text r = Some (text l, s).
Proof. intros ->. reflexivity. Qed.

(** ** The pairs examined *)
Lemma in_zip3 (x y : list R) i a b : List.length y = List.length x -> In (i, a, b) (zip3 (List.length x) x y) -> a = nth i x 0 /\ b = nth i y 0 /\ (i < List.length x)%nat.
Proof.
  intros HL H. unfold zip3 in H. apply (In_nth _ _ ((0%nat, 0), 0)) in H. destruct H as (t & Ht & E). rewrite combine_length, combine_length, seq_length, HL, !Nat.min_id in Ht.
  rewrite combine_nth in E by (rewrite combine_length, seq_length, HL; lia). rewrite combine_nth in E by (rewrite seq_length; lia). rewrite seq_nth in E by lia.
  cbn [Nat.add] in E. injection E as <- <- <-. repeat split. lia.
Qed.
Lemma lt_length n : List.length (lt_pairs n) = (n * (n - 1) / 2)%nat.
Proof. rewrite lt_pairs_eq. apply lt_pairs_length. Qed.
Lemma neq_length n : List.length (neq_pairs n) = (n * (n - 1))%nat.
Proof. rewrite neq_pairs_eq. apply neq_pairs_length. Qed.
Lemma in_lt_pairs n i j : In (i, j) (lt_pairs n) -> (i < j < n)%nat.
Proof. rewrite lt_pairs_eq, pairs_if_in. intros (H1 & H2 & H3). apply Nat.ltb_lt in H3. apply in_seq in H2. lia. Qed.
Lemma in_neq_pairs n i j : In (i, j) (neq_pairs n) -> (i < n /\ j < n /\ i <> j)%nat.
Proof.
  rewrite neq_pairs_eq, pairs_if_in. intros (H1 & H2 & H3). apply in_seq in H1. apply in_seq in H2. destruct (Nat.eqb_spec i j) as [->|N]; [discriminate|]. repeat split; [lia|lia|exact N].
Qed.

(** ** One pair *)
Lemma draw_eq G s : random_sample G s = (fst (random_sample G s), snd (random_sample G s)).
Proof. destruct (random_sample G s). reflexivity. Qed.
Lemma enh_step G i j z y (p q : nat -> nat -> R) s : numpy_contract G -> 0 <= z -> 0 <= y < 1 -> p i j = 1 - q_enh z y 0 -> q i j = y ->
  exists s', (let (u, s) := random_sample G s in
    if flt (Fin u) (fdiv (z * y) (1 - y + z * y)) then match geometric G (1 - y) s with None => None | Some (w, s) => Some (Some (i, j, w), s) end else Some (None, s))
  = Some (int_outcome G p q (i, j) s, s').
Proof.
  intros HG HZ HY EP EQ. destruct (enh_prob z y HZ HY) as (E1 & HP & HQ). unfold int_outcome. destruct (random_sample G s) as [u s1]. rewrite E1. cbn [flt fst snd]. rewrite EP, EQ.
  assert (E : 1 - q_enh z y 0 = z * y / (1 - y + z * y)) by (unfold q_enh; simpl; field; lra). rewrite E.
  destruct (Rlt_dec u (z * y / (1 - y + z * y))) as [H|H]; [|eexists; reflexivity].
  destruct (proj1 (proj2 (proj2 HG)) (1 - y) s1 ltac:(lra)) as (w & s2 & E2 & _). rewrite E2. eexists. reflexivity.
Qed.
Lemma exp_step G i j b (p q : nat -> nat -> R) u s : numpy_contract G -> 0 < b -> q i j = b ->
  exists s', (if flt (Fin u) (Fin (p i j)) then match exponential G (fdiv 1 b) s with None => None | Some (w, s) => Some (Some (i, j, w), s) end else Some (None, s))
  = Some (if Rlt_dec u (p i j) then option_map (fun t => ((i, j), fst t)) (exponential G (Fin (1 / q i j)) s) else None, s').
Proof.
  intros HG HB EQ. destruct (fdiv_rate b HB) as (E1 & HP). rewrite E1, EQ. cbn [flt].
  destruct (Rlt_dec u (p i j)) as [H|H]; [|eexists; reflexivity]. destruct (proj2 (proj2 (proj2 (proj2 HG))) (1 / b) s HP) as (w & s2 & E2 & _). rewrite E2. eexists. reflexivity.
Qed.

(** ** The models *)
Lemma ecm_graph_outcomes G x y cpu k s c : numpy_contract G -> let n := List.length x in List.length y = n ->
  (forall i j, (i < j < n)%nat -> 0 <= mul2 x x i j /\ 0 <= mul2 y y i j < 1) ->
  valid_choice G cpu (n * (n - 1) / 2) c -> (0 <= k < 1000000)%Z ->
  exists s1, ensemble_sampler_ecm_graph G x y cpu (Some k) s c =
    Some (outcomes G (int_outcome G (p_enh (mul2 x x) (mul2 y y)) (mul2 y y)) (lt_pairs n) (pair_states G (List.length (lt_pairs n)) k), s1).
Proof.
  intros HG n HL HD HC HK. unfold ensemble_sampler_ecm_graph.
  refine (sample_graph_outcomes G _ (fun p => (fst (fst (fst p)), fst (fst (snd p)))) _ _ _ cpu k s c HG _ _ _ HK _).
  - intros a q t _. reflexivity.
  - rewrite lt_pairs_eq. apply ecm_items, HL.
  - rewrite lt_length. exact HC.
  - intros [[[i xi] yi] [[j xj] yj]] q HI Hq. pose proof (in_map (fun p => (fst (fst (fst p)), fst (fst (snd p)))) _ _ HI) as HJ. rewrite (ecm_items x y HL), <- lt_pairs_eq in HJ. cbn [fst snd] in HJ.
    apply in_lt_pairs in HJ. apply in_pairs_if in HI. destruct HI as [H1 H2]. apply (in_zip3 x y _ _ _ HL) in H1, H2. destruct H1 as (-> & -> & _), H2 as (-> & -> & _).
    destruct (HD i j HJ) as (HZ & HY). cbn [fst snd]. unfold is_a_link_ecm, maybe_seed. rewrite (np_seed_ok G q Hq). cbv zeta.
    apply (enh_step G i j (mul2 x x i j) (mul2 y y i j) (p_enh (mul2 x x) (mul2 y y)) (mul2 y y)); auto.
Qed.
Lemma decm_graph_outcomes G x y z w cpu k s c : numpy_contract G -> let n := List.length x in List.length y = n -> List.length z = n -> List.length w = n ->
  (forall i j, (i < n)%nat -> (j < n)%nat -> i <> j -> 0 <= mul2 x y i j /\ 0 <= mul2 z w i j < 1) ->
  valid_choice G cpu (n * (n - 1)) c -> (0 <= k < 1000000)%Z ->
  exists s1, ensemble_sampler_decm_graph G x y z w cpu (Some k) s c =
    Some (outcomes G (int_outcome G (p_enh (mul2 x y) (mul2 z w)) (mul2 z w)) (neq_pairs n) (pair_states G (List.length (neq_pairs n)) k), s1).
Proof.
  intros HG n HL HL2 HL3 HD HC HK. unfold ensemble_sampler_decm_graph.
  refine (sample_graph_outcomes G _ (fun p => (fst (fst (fst p)), fst (fst (snd p)))) _ _ _ cpu k s c HG _ _ _ HK _).
  - intros a q t _. reflexivity.
  - rewrite neq_pairs_eq. apply decm_items; assumption.
  - rewrite neq_length. exact HC.
  - intros [[[i xi] yi] [[j xj] yj]] q HI Hq. pose proof (in_map (fun p => (fst (fst (fst p)), fst (fst (snd p)))) _ _ HI) as HJ. rewrite (decm_items x y z w HL HL2 HL3), <- neq_pairs_eq in HJ. cbn [fst snd] in HJ.
    apply in_neq_pairs in HJ. destruct HJ as (HI1 & HI2 & HN). apply in_pairs_if in HI. destruct HI as [H1 H2]. apply (in_zip3 x z _ _ _ HL2) in H1. fold n in H2; rewrite <- HL in H2. apply (in_zip3 y w _ _ _ (eq_trans HL3 (eq_sym HL))) in H2.
    destruct H1 as (-> & -> & _), H2 as (-> & -> & _).
    destruct (HD i j HI1 HI2 HN) as (HZ & HY). cbn [fst snd]. unfold is_a_link_decm, maybe_seed. rewrite (np_seed_ok G q Hq). cbv zeta.
    apply (enh_step G i j (mul2 x y i j) (mul2 z w i j) (p_enh (mul2 x y) (mul2 z w)) (mul2 z w)); auto.
Qed.

Lemma nth_error_nth0 (l : list R) i a : nth_error l i = Some a -> a = nth i l 0.
Proof. intros H. symmetry. apply nth_error_nth, H. Qed.
Lemma nth_error_lt (l : list R) i : (i < List.length l)%nat -> nth_error l i = Some (nth i l 0).
Proof. intros H. apply nth_error_nth', H. Qed.
Lemma collect_map_total {A B} (f : A -> option B) l : (forall a, In a l -> exists b, f a = Some b) -> exists r, collect (map f l) = Some r.
Proof.
  induction l as [|a l IH]; intros H; [exists []; reflexivity|]. cbn [map collect]. destruct (H a (or_introl eq_refl)) as (b & ->). destruct (IH (fun q Hq => H q (or_intror Hq))) as (r & ->). eexists. reflexivity.
Qed.
Lemma lookup_pairs_total b b' l : (forall i j, In (i, j) l -> (i < List.length b)%nat /\ (j < List.length b')%nat) -> exists items, lookup_pairs b b' l = Some items.
Proof.
  intros H. apply collect_map_total. intros [i j] HI. destruct (H i j HI) as (H1 & H2). cbn [fst snd]. rewrite (nth_error_lt b i H1), (nth_error_lt b' j H2). eexists. reflexivity.
Qed.
Lemma crema_det_outcomes G b b' row col w cpu k s c : numpy_contract G -> List.length col = List.length row ->
  (forall i j, In (i, j) (combine row col) -> (i < List.length b)%nat /\ (j < List.length b')%nat /\ 0 < sum2 b b' i j) ->
  valid_choice G cpu (List.length row) c -> (0 <= k < 1000000)%Z ->
  exists s1, ensemble_sampler_crema_det_graph G b b' (row, col, w) cpu (Some k) s c =
    Some (outcomes G (sure_outcome G (sum2 b b')) (combine row col) (pair_states G (List.length (combine row col)) k), s1).
Proof.
  intros HG HL HR HC HK. unfold ensemble_sampler_crema_det_graph.
  destruct (lookup_pairs_total b b' (combine row col)) as (items & E); [intros i j HI; destruct (HR i j HI) as (? & ? & _); auto|]. rewrite E.
  refine (sample_graph_outcomes G _ (fun p => (fst (fst p), fst (snd p))) _ _ _ cpu k s c HG _ _ _ HK _).
  - intros a q t _. reflexivity.
  - apply (lookup_pairs_items _ _ _ _ E).
  - rewrite combine_length, HL, Nat.min_id. exact HC.
  - intros [[i bi] [j bj]] q HI Hq. destruct (lookup_in _ _ _ _ _ E HI) as (H1 & H2 & H3). cbn [fst snd] in *. apply nth_error_nth0 in H2, H3. subst bi bj.
    destruct (HR i j H1) as (_ & _ & HP). unfold is_a_link_crema_det, maybe_seed. rewrite (np_seed_ok G q Hq). destruct (fdiv_rate _ HP) as (E1 & HQ). unfold sum2 in E1 at 1. rewrite E1.
    unfold sure_outcome. cbn [fst snd]. destruct (proj2 (proj2 (proj2 (proj2 HG))) _ (seeded G q) HQ) as (u & s2 & E2 & _). rewrite E2. eexists. reflexivity.
Qed.
Lemma combine_firstn_all {A B} (r : list A) (c : list B) m : List.length r = m -> List.length c = m -> firstn m (combine r c) = combine r c.
Proof. intros H1 H2. rewrite <- (firstn_all (combine r c)) at 2. f_equal. rewrite combine_length. lia. Qed.
Lemma crema_prob_outcomes G b b' row col w cpu k s c : numpy_contract G -> List.length row = List.length w -> List.length col = List.length w ->
  (forall i j, In (i, j) (combine row col) -> (i < List.length b)%nat /\ (j < List.length b')%nat /\ 0 < sum2 b b' i j) ->
  valid_choice G cpu (List.length w) c -> (0 <= k < 1000000)%Z ->
  exists s1, ensemble_sampler_crema_prob_graph G b b' (row, col, w) cpu (Some k) s c =
    Some (outcomes G (listed_outcome G (sum2 b b')) (combine (combine row col) w) (pair_states G (List.length (combine (combine row col) w)) k), s1).
Proof.
  intros HG H1 H2 HR HC HK. unfold ensemble_sampler_crema_prob_graph. rewrite (combine_firstn_all row col (List.length w) H1 H2).
  destruct (lookup_pairs_total b b' (combine row col)) as (items & E); [intros i j HI; destruct (HR i j HI) as (? & ? & _); auto|]. rewrite E.
  pose proof (lookup_pairs_items _ _ _ _ E) as EI. pose proof (length_of_map _ _ _ EI) as EL. rewrite combine_length, H1, H2, Nat.min_id in EL.
  refine (sample_graph_outcomes G _ (fun p => ((fst (fst (fst p)), fst (snd (fst p))), snd p)) _ _ _ cpu k s c HG _ _ _ HK _).
  - intros a q t _. reflexivity.
  - rewrite <- EI. clear. revert w. induction items as [|a items IH]; intros [|p w]; cbn [combine map]; [reflexivity|reflexivity|reflexivity|]. rewrite IH. reflexivity.
  - rewrite !combine_length, H1, H2, !Nat.min_id. exact HC.
  - intros [[[i bi] [j bj]] p] q HI Hq. apply in_combine_l in HI. destruct (lookup_in _ _ _ _ _ E HI) as (I1 & I2 & I3). cbn [fst snd] in *. apply nth_error_nth0 in I2, I3. subst bi bj.
    destruct (HR i j I1) as (_ & _ & HP). unfold is_a_link_crema_prob, maybe_seed. rewrite (np_seed_ok G q Hq). unfold listed_outcome, real_outcome. cbn [fst snd]. destruct (random_sample G (seeded G q)) as [u s1]. cbv zeta.
    apply (exp_step G i j (sum2 b b' i j) (fun _ _ => p) (sum2 b b') u s1 HG HP eq_refl).
Qed.
Lemma in_combine_index {A B} (l : list A) (l' : list B) a b : In (a, b) (combine l l') -> In a l /\ In b l'.
Proof. intros H. split; [eapply in_combine_l, H|eapply in_combine_r, H]. Qed.
Lemma crema_sparse_outcomes G bo bi x y cpu k s c : numpy_contract G -> let n := List.length x in
  List.length y = n -> List.length bo = n -> List.length bi = n ->
  (forall i j, (i < n)%nat -> (j < n)%nat -> i <> j -> 0 <= mul2 x y i j /\ 0 < sum2 bo bi i j) ->
  valid_choice G cpu (n * (n - 1)) c -> (0 <= k < 1000000)%Z ->
  exists s1, ensemble_sampler_crema_sparse_prob_graph G bo bi x y cpu (Some k) s c =
    Some (outcomes G (real_outcome G (p_binary x y) (sum2 bo bi)) (neq_pairs n) (pair_states G (List.length (neq_pairs n)) k), s1).
Proof.
  intros HG n HY HO HI HD HC HK. unfold ensemble_sampler_crema_sparse_prob_graph. fold n. rewrite <- neq_pairs_eq.
  assert (HT : exists items, lookup_sparse bo bi x y (neq_pairs n) = Some items).
  { apply collect_map_total. intros [i j] HP. apply in_neq_pairs in HP. destruct HP as (P1 & P2 & _). cbn [fst snd].
    rewrite (nth_error_lt bo i), (nth_error_lt x i), (nth_error_lt bi j), (nth_error_lt y j) by (fold n; lia). eexists. reflexivity. }
  destruct HT as (items & E). rewrite E.
  refine (sample_graph_outcomes G _ (fun p => (fst (fst (fst p)), fst (fst (snd p)))) _ _ _ cpu k s c HG _ _ _ HK _).
  - intros a q t _. reflexivity.
  - apply (lookup_sparse_items _ _ _ _ _ _ E).
  - rewrite neq_length. exact HC.
  - intros [[[i b1] x1] [[j b2] x2]] q HA Hq.
    assert (HB : In (i, j) (neq_pairs n) /\ b1 = nth i bo 0 /\ b2 = nth j bi 0 /\ x1 = nth i x 0 /\ x2 = nth j y 0).
    { unfold lookup_sparse in E. apply collect_some in E. apply (in_map Some) in HA. rewrite <- E in HA. apply in_map_iff in HA. destruct HA as ([i' j'] & E' & HP). cbn [fst snd] in E'.
      destruct (nth_error bo i') eqn:F1; [|discriminate]. destruct (nth_error x i') eqn:F2; [|discriminate]. destruct (nth_error bi j') eqn:F3; [|discriminate]. destruct (nth_error y j') eqn:F4; [|discriminate].
      injection E' as <- <- <- <- <- <-. apply nth_error_nth0 in F1, F2, F3, F4. auto. }
    destruct HB as (HP & -> & -> & -> & ->). apply in_neq_pairs in HP. destruct HP as (P1 & P2 & P3). destruct (HD i j P1 P2 P3) as (HZ & HS).
    cbn [fst snd]. unfold is_a_link_crema_sparse, maybe_seed. rewrite (np_seed_ok G q Hq). unfold real_outcome. cbn [fst snd]. destruct (random_sample G (seeded G q)) as [u s1]. cbv zeta.
    rewrite (Rmult_comm (nth j y 0) (nth i x 0)). fold (mul2 x y i j). rewrite (proj1 (link_prob _ HZ)). fold (p_binary x y i j).
    apply (exp_step G i j (sum2 bo bi i j) (p_binary x y) (sum2 bo bi) u s1 HG HS eq_refl).
Qed.
Lemma cm_graph_outcomes G x cpu k s c : numpy_contract G -> let n := List.length x in
  (forall i j, (i < j < n)%nat -> 0 <= mul2 x x i j) ->
  valid_choice G cpu (n * (n - 1) / 2) c -> (0 <= k < 1000000)%Z ->
  exists s1, ensemble_sampler_cm_graph G x cpu (Some k) s c =
    Some (outcomes G (bare_outcome G (p_binary x x)) (lt_pairs n) (pair_states G (List.length (lt_pairs n)) k), s1).
Proof.
  intros HG n HD HC HK. unfold ensemble_sampler_cm_graph.
  refine (sample_graph_outcomes G _ (fun p => (fst (fst p), fst (snd p))) _ _ _ cpu k s c HG _ _ _ HK _).
  - intros a q t _. reflexivity.
  - rewrite lt_pairs_eq. apply cm_items.
  - rewrite lt_length. exact HC.
  - intros [[i xi] [j xj]] q HI Hq. pose proof (in_map (fun p => (fst (fst p), fst (snd p))) _ _ HI) as HJ. rewrite (cm_items x), <- lt_pairs_eq in HJ. cbn [fst snd] in HJ.
    apply in_lt_pairs in HJ. apply in_pairs_if in HI. destruct HI as [H1 H2]. apply (in_combine_nth x 0) in H1. apply (in_combine_nth x 0) in H2.
    destruct H1 as (-> & _ & _), H2 as (-> & _ & _). rewrite !Nat.sub_0_r. cbn [fst snd]. eexists.
    rewrite (is_a_link_cm_draw G i j _ _ (Some q) (seeded G q) (seeded G q) (np_seed_ok G q Hq) (HD i j HJ)). reflexivity.
Qed.
Lemma dcm_graph_outcomes G x y cpu k s c : numpy_contract G -> let n := List.length x in List.length y = n ->
  (forall i j, (i < n)%nat -> (j < n)%nat -> i <> j -> 0 <= mul2 x y i j) ->
  valid_choice G cpu (n * (n - 1)) c -> (0 <= k < 1000000)%Z ->
  exists s1, ensemble_sampler_dcm_graph G x y cpu (Some k) s c =
    Some (outcomes G (bare_outcome G (p_binary x y)) (neq_pairs n) (pair_states G (List.length (neq_pairs n)) k), s1).
Proof.
  intros HG n HL HD HC HK. unfold ensemble_sampler_dcm_graph.
  refine (sample_graph_outcomes G _ (fun p => (fst (fst p), fst (snd p))) _ _ _ cpu k s c HG _ _ _ HK _).
  - intros a q t _. reflexivity.
  - rewrite neq_pairs_eq. apply dcm_items, HL.
  - rewrite neq_length. exact HC.
  - intros [[i xi] [j xj]] q HI Hq. pose proof (in_map (fun p => (fst (fst p), fst (snd p))) _ _ HI) as HJ. rewrite (dcm_items x y HL), <- neq_pairs_eq in HJ. cbn [fst snd] in HJ.
    apply in_neq_pairs in HJ. destruct HJ as (J1 & J2 & J3). apply in_pairs_if in HI. destruct HI as [H1 H2]. apply (in_combine_nth x 0) in H1. unfold zip_inds in H2. fold n in H2. rewrite <- HL in H2. apply (in_combine_nth y 0) in H2.
    destruct H1 as (-> & _ & _), H2 as (-> & _ & _). rewrite !Nat.sub_0_r. cbn [fst snd]. eexists.
    rewrite (is_a_link_dcm_draw G i j _ _ (Some q) (seeded G q) (seeded G q) (np_seed_ok G q Hq) (HD i j J1 J2 J3)). reflexivity.
Qed.

(** ** The calls *)
Ltac branch HM := destruct HM as [HM|[HM|[]]]; rewrite <- HM; cbn [String.eqb Ascii.eqb Bool.eqb orb negb].
Lemma sampler_cm G v N cpu out seed entropy choice s0 : numpy_contract G -> is_model v ["cm"; "cm_exp"]%string -> let n := List.length (v_x v) in
  (forall i j, (i < j < n)%nat -> 0 <= mul2 (v_x v) (v_x v) i j) ->
  (forall t, valid_choice G cpu (n * (n - 1) / 2) (choice t)) -> top_seed G seed entropy = Some s0 ->
  ensemble_sampler G false v N cpu out seed entropy choice =
  Some (files_of G out N s0 Unweighted (bare_outcome G (p_binary (v_x v) (v_x v))) (lt_pairs n)).
Proof.
  intros HG HM n HD HC HS. eapply (call_outcomes G false); [exact HG|exact HS|unfold sampler_und; branch HM; reflexivity|].
  intros k s t Hk. destruct (cm_graph_outcomes G (v_x v) cpu k s (choice t) HG HD (HC t) Hk) as (s1 & E). exists s1. apply tag_some, E.
Qed.
Lemma sampler_ecm G v N cpu out seed entropy choice s0 : numpy_contract G -> is_model v ["ecm"; "ecm_exp"]%string -> let n := List.length (v_x v) in
  List.length (v_y v) = n -> (forall i j, (i < j < n)%nat -> 0 <= mul2 (v_x v) (v_x v) i j /\ 0 <= mul2 (v_y v) (v_y v) i j < 1) ->
  (forall t, valid_choice G cpu (n * (n - 1) / 2) (choice t)) -> top_seed G seed entropy = Some s0 ->
  ensemble_sampler G false v N cpu out seed entropy choice =
  Some (files_of G out N s0 IntWeighted (int_outcome G (p_enh (mul2 (v_x v) (v_x v)) (mul2 (v_y v) (v_y v))) (mul2 (v_y v) (v_y v))) (lt_pairs n)).
Proof.
  intros HG HM n HL HD HC HS. eapply (call_outcomes G false); [exact HG|exact HS|unfold sampler_und; branch HM; reflexivity|].
  intros k s t Hk. destruct (ecm_graph_outcomes G (v_x v) (v_y v) cpu k s (choice t) HG HL HD (HC t) Hk) as (s1 & E). exists s1. apply tag_some, E.
Qed.
Lemma sampler_dcm G v N cpu out seed entropy choice s0 : numpy_contract G -> is_model v ["dcm"; "dcm_exp"]%string -> let n := List.length (v_x v) in
  List.length (v_y v) = n -> (forall i j, (i < n)%nat -> (j < n)%nat -> i <> j -> 0 <= mul2 (v_x v) (v_y v) i j) ->
  (forall t, valid_choice G cpu (n * (n - 1)) (choice t)) -> top_seed G seed entropy = Some s0 ->
  ensemble_sampler G true v N cpu out seed entropy choice =
  Some (files_of G out N s0 Unweighted (bare_outcome G (p_binary (v_x v) (v_y v))) (neq_pairs n)).
Proof.
  intros HG HM n HL HD HC HS. eapply (call_outcomes G true); [exact HG|exact HS|unfold sampler_dir; branch HM; reflexivity|].
  intros k s t Hk. destruct (dcm_graph_outcomes G (v_x v) (v_y v) cpu k s (choice t) HG HL HD (HC t) Hk) as (s1 & E). exists s1. apply tag_some, E.
Qed.
Lemma sampler_decm G v N cpu out seed entropy choice s0 : numpy_contract G -> is_model v ["decm"; "decm_exp"]%string -> let n := List.length (v_x v) in
  List.length (v_y v) = n -> List.length (v_b_out v) = n -> List.length (v_b_in v) = n ->
  (forall i j, (i < n)%nat -> (j < n)%nat -> i <> j -> 0 <= mul2 (v_x v) (v_y v) i j /\ 0 <= mul2 (v_b_out v) (v_b_in v) i j < 1) ->
  (forall t, valid_choice G cpu (n * (n - 1)) (choice t)) -> top_seed G seed entropy = Some s0 ->
  ensemble_sampler G true v N cpu out seed entropy choice =
  Some (files_of G out N s0 IntWeighted
    (int_outcome G (p_enh (mul2 (v_x v) (v_y v)) (mul2 (v_b_out v) (v_b_in v))) (mul2 (v_b_out v) (v_b_in v))) (neq_pairs n)).
Proof.
  intros HG HM n HL HL2 HL3 HD HC HS. eapply (call_outcomes G true); [exact HG|exact HS|unfold sampler_dir; branch HM; reflexivity|].
  intros k s t Hk. destruct (decm_graph_outcomes G (v_x v) (v_y v) (v_b_out v) (v_b_in v) cpu k s (choice t) HG HL HL2 HL3 HD (HC t) Hk) as (s1 & E). exists s1. apply tag_some, E.
Qed.
Lemma sampler_crema_given G (directed : bool) v N cpu out seed entropy choice s0 row col w : numpy_contract G -> v_last_model v = "crema"%string ->
  v_adjacency_given v = true -> v_adjacency_crema v = Edges (row, col, w) -> List.length col = List.length row ->
  (forall i j, In (i, j) (combine row col) ->
     (i < List.length (v_b_out v))%nat /\ (j < List.length (rates_in directed v))%nat /\ 0 < sum2 (v_b_out v) (rates_in directed v) i j) ->
  (forall t, valid_choice G cpu (List.length row) (choice t)) -> top_seed G seed entropy = Some s0 ->
  ensemble_sampler G directed v N cpu out seed entropy choice =
  Some (files_of G out N s0 RealWeighted (sure_outcome G (sum2 (v_b_out v) (rates_in directed v))) (combine row col)).
Proof.
  intros HG HM HA HE HL HD HC HS. destruct directed; cbn [rates_in] in *.
  - eapply (call_outcomes G true); [exact HG|exact HS|unfold sampler_dir; rewrite HM, HA, HE; cbn [String.eqb Ascii.eqb Bool.eqb orb]; reflexivity|].
    intros k s t Hk. destruct (crema_det_outcomes G (v_b_out v) (v_b_in v) row col w cpu k s (choice t) HG HL HD (HC t) Hk) as (s1 & E). exists s1. apply tag_some, E.
  - eapply (call_outcomes G false); [exact HG|exact HS|unfold sampler_und; rewrite HM, HA, HE; cbn [String.eqb Ascii.eqb Bool.eqb orb]; reflexivity|].
    intros k s t Hk. destruct (crema_det_outcomes G (v_b_out v) (v_b_out v) row col w cpu k s (choice t) HG HL HD (HC t) Hk) as (s1 & E). exists s1. apply tag_some, E.
Qed.
Lemma sampler_crema_prob G (directed : bool) v N cpu out seed entropy choice s0 row col w : numpy_contract G -> v_last_model v = "crema"%string ->
  v_adjacency_given v = false -> v_adjacency_crema v = Edges (row, col, w) -> List.length row = List.length w -> List.length col = List.length w ->
  (forall i j, In (i, j) (combine row col) ->
     (i < List.length (v_b_out v))%nat /\ (j < List.length (rates_in directed v))%nat /\ 0 < sum2 (v_b_out v) (rates_in directed v) i j) ->
  (forall t, valid_choice G cpu (List.length w) (choice t)) -> top_seed G seed entropy = Some s0 ->
  ensemble_sampler G directed v N cpu out seed entropy choice =
  Some (files_of G out N s0 RealWeighted (listed_outcome G (sum2 (v_b_out v) (rates_in directed v))) (combine (combine row col) w)).
Proof.
  intros HG HM HA HE HL HL2 HD HC HS. destruct directed; cbn [rates_in] in *.
  - eapply (call_outcomes G true); [exact HG|exact HS|unfold sampler_dir; rewrite HM, HA, HE; cbn [String.eqb Ascii.eqb Bool.eqb orb]; reflexivity|].
    intros k s t Hk. destruct (crema_prob_outcomes G (v_b_out v) (v_b_in v) row col w cpu k s (choice t) HG HL HL2 HD (HC t) Hk) as (s1 & E). exists s1. apply tag_some, E.
  - eapply (call_outcomes G false); [exact HG|exact HS|unfold sampler_und; rewrite HM, HA, HE; cbn [String.eqb Ascii.eqb Bool.eqb orb]; reflexivity|].
    intros k s t Hk. destruct (crema_prob_outcomes G (v_b_out v) (v_b_out v) row col w cpu k s (choice t) HG HL HL2 HD (HC t) Hk) as (s1 & E). exists s1. apply tag_some, E.
Qed.
Lemma sampler_sparse_und G v N cpu out seed entropy choice s0 x : numpy_contract G -> v_last_model v = "crema-sparse"%string ->
  v_adjacency_given v = false -> v_adjacency_crema v = OneArray x -> let n := List.length x in List.length (v_b_out v) = n ->
  (forall i j, (i < n)%nat -> (j < n)%nat -> i <> j -> 0 <= mul2 x x i j /\ 0 < sum2 (v_b_out v) (v_b_out v) i j) ->
  (forall t, valid_choice G cpu (n * (n - 1)) (choice t)) -> top_seed G seed entropy = Some s0 ->
  ensemble_sampler G false v N cpu out seed entropy choice =
  Some (files_of G out N s0 RealWeighted (real_outcome G (p_binary x x) (sum2 (v_b_out v) (v_b_out v))) (neq_pairs n)).
Proof.
  intros HG HM HA HE n HL HD HC HS.
  eapply (call_outcomes G false); [exact HG|exact HS|unfold sampler_und; rewrite HM, HA, HE; cbn [String.eqb Ascii.eqb Bool.eqb orb negb]; reflexivity|].
  intros k s t Hk. destruct (crema_sparse_outcomes G (v_b_out v) (v_b_out v) x x cpu k s (choice t) HG eq_refl HL HL HD (HC t) Hk) as (s1 & E). exists s1. apply tag_some, E.
Qed.
Lemma sampler_sparse_dir G v N cpu out seed entropy choice s0 x y : numpy_contract G -> v_last_model v = "crema-sparse"%string ->
  v_adjacency_given v = false -> v_adjacency_crema v = TwoArrays x y -> let n := List.length x in List.length y = n ->
  List.length (v_b_out v) = n -> List.length (v_b_in v) = n ->
  (forall i j, (i < n)%nat -> (j < n)%nat -> i <> j -> 0 <= mul2 x y i j /\ 0 < sum2 (v_b_out v) (v_b_in v) i j) ->
  (forall t, valid_choice G cpu (n * (n - 1)) (choice t)) -> top_seed G seed entropy = Some s0 ->
  ensemble_sampler G true v N cpu out seed entropy choice =
  Some (files_of G out N s0 RealWeighted (real_outcome G (p_binary x y) (sum2 (v_b_out v) (v_b_in v))) (neq_pairs n)).
Proof.
  intros HG HM HA HE n HL HL2 HL3 HD HC HS.
  eapply (call_outcomes G true); [exact HG|exact HS|unfold sampler_dir; rewrite HM, HA, HE; cbn [String.eqb Ascii.eqb Bool.eqb orb negb]; reflexivity|].
  intros k s t Hk. destruct (crema_sparse_outcomes G (v_b_out v) (v_b_in v) x y cpu k s (choice t) HG HL HL2 HL3 HD (HC t) Hk) as (s1 & E). exists s1. apply tag_some, E.
Qed.

(** * The joint law of the pairs of one graph *)
Lemma is_RInt_mulc (f : R -> R) (P l : R) : is_RInt f 0 1 l -> is_RInt (fun u => f u * P) 0 1 (l * P).
Proof.
  intros H. apply (is_RInt_ext (fun u => scal P (f u))); [intros x _; apply Rmult_comm|]. replace (l * P) with (scal P l) by apply Rmult_comm.
  apply (is_RInt_scal (V := R_NormedModule) f 0 1 P l H).
Qed.
Lemma pairs_law G {L} (f : nat * nat -> gstate G -> option L) (draw : R -> R -> gstate G) (pr : L -> nat * nat) (good : L -> Prop)
    (E : nat * nat -> option L -> bool) (q : nat -> nat -> R) (ok : list (nat * nat) -> list L -> bool) :
  (forall e s v, f e s = Some v -> pr v = e /\ good v) ->
  ok [] [] = true ->
  (forall e l r lines, ~ In e l -> (forall v, In v lines -> In (pr v) l) -> (forall v, r = Some v -> pr v = e /\ good v) ->
     ok (e :: l) (match r with Some v => [v] | None => [] end ++ lines) = E e r && ok l lines) ->
  forall pairs, NoDup pairs -> (forall e, In e pairs -> prob2 (fun u v => E e (f e (draw u v))) (q (fst e) (snd e))) ->
  probn (2 * List.length pairs) (fun us => ok pairs (outcomes G f pairs (states_of draw us))) (over_pairs pairs q).
Proof.
  intros HF H0 HS. induction pairs as [|e pairs IH]; intros HN HP.
  { cbn [List.length Nat.mul Nat.add probn over_pairs fold_right]. change (outcomes G f [] (states_of draw [])) with (@nil L). rewrite H0. reflexivity. }
  apply NoDup_cons_iff in HN. destruct HN as (HI & HN). specialize (IH HN (fun a Ha => HP a (or_intror Ha))).
  replace (2 * List.length (e :: pairs))%nat with (S (S (2 * List.length pairs))) by (cbn [List.length]; lia).
  destruct (HP e (or_introl eq_refl)) as (g & Hg & Ig). set (P := over_pairs pairs q) in *. cbn [probn].
  exists (fun u => g u * P). split.
  - intros u Hu. exists (fun v => (if E e (f e (draw u v)) then 1 else 0) * P). split.
    + intros v Hv. assert (EV : forall us, ok (e :: pairs) (outcomes G f (e :: pairs) (states_of draw (u :: v :: us))) = E e (f e (draw u v)) && ok pairs (outcomes G f pairs (states_of draw us))).
      { intros us. cbn [states_of]. rewrite outcomes_cons. apply HS; [exact HI| |intros w Hw; eapply HF, Hw].
        intros w Hw. unfold outcomes in Hw. apply in_flat_map in Hw. destruct Hw as ([a s] & Ha & Hw). cbn [fst snd] in Hw. destruct (f a s) as [w'|] eqn:Ew; [|destruct Hw].
        destruct Hw as [->|[]]. rewrite (proj1 (HF _ _ _ Ew)). eapply in_combine_l, Ha. }
      destruct (E e (f e (draw u v))) eqn:EE.
      * rewrite Rmult_1_l. eapply probn_ext; [|exact IH]. intros us _. rewrite EV. reflexivity.
      * rewrite Rmult_0_l. eapply probn_ext; [|apply probn_false]. intros us _. rewrite EV. reflexivity.
    + apply is_RInt_mulc, (Hg u Hu).
  - change (over_pairs (e :: pairs) q) with (q (fst e) (snd e) * P). apply is_RInt_mulc, Ig.
Qed.
Lemma same_lines_cons a l l' : same_lines (a :: l) (a :: l') = same_lines l l'.
Proof. unfold same_lines. destruct (list_eq_dec _ (a :: l) _) as [E|E], (list_eq_dec _ l l') as [E'|E']; try reflexivity; [injection E; contradiction|subst; contradiction]. Qed.
Lemma same_lines_false l l' : l <> l' -> same_lines l l' = false.
Proof. intros H. unfold same_lines. destruct (list_eq_dec _ _ _); [contradiction|reflexivity]. Qed.
Lemma weight_lines_in w l v : In v (weight_lines w l) -> In (fst v) l.
Proof. unfold weight_lines. intros H. apply in_flat_map in H. destruct H as (e & He & H). destruct (linked _); [|destruct H]. destruct H as [<-|[]]. exact He. Qed.
Definition has_count (w : nat) (r : option (nat * nat * nat)) : bool := match r with Some v => Nat.eqb (snd v) w | None => Nat.eqb 0 w end.
Lemma int_outcome_pair G p y e s v : int_outcome G p y e s = Some v -> fst v = e.
Proof.
  unfold int_outcome. destruct (random_sample G s) as [u s1]. destruct (Rlt_dec _ _); [|discriminate]. destruct (geometric _ _ _) as [[w s2]|]; [|discriminate]. intros E. injection E as <-. reflexivity.
Qed.
(** The lines of the pairs match the wanted weights pair by pair. *)
Lemma int_lines_step w e l r lines : ~ In e l -> (forall v, In v lines -> In (fst v) l) -> (forall v, r = Some v -> fst v = e /\ (1 <= snd v)%nat) ->
  same_lines (match r with Some v => [v] | None => [] end ++ lines) (weight_lines w (e :: l)) = has_count (w (fst e) (snd e)) r && same_lines lines (weight_lines w l).
Proof.
  intros HI HL HR. change (weight_lines w (e :: l)) with ((if linked (w (fst e) (snd e)) then [(e, w (fst e) (snd e))] else []) ++ weight_lines w l).
  destruct r as [[e' k]|]; cbn [has_count snd].
  - destruct (HR _ eq_refl) as (E1 & K). cbn [fst snd] in E1, K. subst e'. destruct (Nat.eqb_spec k (w (fst e) (snd e))) as [<-|N].
    + unfold linked. destruct (Nat.eqb_spec k 0); [lia|]. cbn [negb app andb]. apply same_lines_cons.
    + cbn [andb]. apply same_lines_false. destruct (linked (w (fst e) (snd e))); cbn [app]; intros EQ.
      * injection EQ. intros. apply N. assumption.
      * apply HI. apply (weight_lines_in w l (e, k)). rewrite <- EQ. left. reflexivity.
  - destruct (Nat.eqb_spec 0 (w (fst e) (snd e))) as [Z|N].
    + rewrite <- Z. cbn [linked Nat.eqb negb app andb]. reflexivity.
    + cbn [andb app]. apply same_lines_false. unfold linked. destruct (Nat.eqb_spec (w (fst e) (snd e)) 0) as [Z|_]; [symmetry in Z; contradiction|]. cbn [negb app]. intros EQ.
      apply HI. apply (HL (e, w (fst e) (snd e))). rewrite EQ. left. reflexivity.
Qed.

Lemma int_outcome_good G p y e s v : numpy_contract G -> int_outcome G p y e s = Some v -> fst v = e /\ (1 <= snd v)%nat.
Proof.
  intros HG H. split; [eapply int_outcome_pair, H|]. revert H. unfold int_outcome. destruct (random_sample G s) as [u s1]. destruct (Rlt_dec _ _); [|discriminate].
  destruct (geometric _ _ _) as [[w s2]|] eqn:E2; [|discriminate]. intros E. injection E as <-. cbn [snd]. apply (geometric_ge1 G _ _ _ _ HG E2).
Qed.
Lemma int_outcome_prob G (draw : R -> R -> gstate G) (z y : nat -> nat -> R) e k : numpy_contract G -> uniform_then_geometric G draw ->
  0 <= z (fst e) (snd e) -> 0 <= y (fst e) (snd e) < 1 ->
  prob2 (fun u v => has_count k (int_outcome G (p_enh z y) y e (draw u v))) (q_enh (z (fst e) (snd e)) (y (fst e) (snd e)) k).
Proof.
  intros HG HD HZ HY. destruct e as [i j]. cbn [fst snd] in *.
  pose proof (enh_law G draw (fun s => let (u, s) := random_sample G s in
     if flt (Fin u) (fdiv (z i j * y i j) (1 - y i j + z i j * y i j)) then match geometric G (1 - y i j) s with None => None | Some (w, s) => Some (Some (i, j, w), s) end else Some (None, s))
     (z i j) (y i j) i j k HG HD HZ HY (fun s => eq_refl)) as (g & Hg & Ig).
  exists g. split; [|exact Ig]. intros u Hu. eapply prob1_ext; [|exact (Hg u Hu)]. intros v Hv. cbv beta.
  destruct (enh_step G i j (z i j) (y i j) (p_enh z y) y (draw u v) HG HZ HY eq_refl eq_refl) as (s' & E). rewrite E.
  unfold has_count, has_weight. destruct (int_outcome G (p_enh z y) y (i, j) (draw u v)) as [[e w]|]; reflexivity.
Qed.
Lemma int_law G (draw : R -> R -> gstate G) (z y : nat -> nat -> R) (w : nat -> nat -> nat) pairs : numpy_contract G -> uniform_then_geometric G draw -> NoDup pairs ->
  (forall i j, In (i, j) pairs -> 0 <= z i j /\ 0 <= y i j < 1) ->
  probn (2 * List.length pairs) (fun us => same_lines (outcomes G (int_outcome G (p_enh z y) y) pairs (states_of draw us)) (weight_lines w pairs))
    (over_pairs pairs (fun i j => q_enh (z i j) (y i j) (w i j))).
Proof.
  intros HG HD HN HP.
  refine (pairs_law G (int_outcome G (p_enh z y) y) draw fst (fun v => (1 <= snd v)%nat) (fun e => has_count (w (fst e) (snd e))) (fun i j => q_enh (z i j) (y i j) (w i j))
    (fun l lines => same_lines lines (weight_lines w l)) _ _ _ pairs HN _).
  - intros e s v. apply int_outcome_good, HG.
  - reflexivity.
  - intros e l r lines. apply int_lines_step.
  - intros [i j] HI. destruct (HP i j HI) as (HZ & HY). apply (int_outcome_prob G draw z y (i, j)); assumption.
Qed.
(** Products over pairs as the products of the specification. *)
Lemma over_pairs_lprod pairs q : over_pairs pairs q = SpecEnsemble.lprod pairs (fun e => q (fst e) (snd e)).
Proof. induction pairs as [|e pairs IH]; [reflexivity|]. cbn. rewrite <- IH. reflexivity. Qed.
Lemma lt_upairs n : Permutation (lt_pairs n) (upairs n).
Proof.
  assert (HN : NoDup (lt_pairs n)) by (rewrite lt_pairs_eq; apply NoDup_pairs_if; apply seq_NoDup).
  apply NoDup_Permutation; [exact HN|apply NoDup_upairs|]. intros [i j]. rewrite lt_pairs_eq, pairs_if_in. unfold upairs. rewrite in_flat_map. split.
  + intros (H1 & H2 & H3). apply Nat.ltb_lt in H3. exists j. split; [exact H2|]. apply in_map_iff. exists i. split; [reflexivity|]. apply in_seq. lia.
  + intros (k & H1 & H2). apply in_map_iff in H2. destruct H2 as (q & E & H2). injection E as <- <-. apply in_seq in H1. apply in_seq in H2. repeat split; [apply in_seq; lia|apply in_seq; lia|apply Nat.ltb_lt; lia].
Qed.
Lemma neq_dpairs n : Permutation (neq_pairs n) (dpairs n).
Proof.
  assert (HN : NoDup (neq_pairs n)) by (rewrite neq_pairs_eq; apply NoDup_pairs_if; apply seq_NoDup).
  apply NoDup_Permutation; [exact HN|apply NoDup_dpairs|]. intros [i j]. rewrite neq_pairs_eq, pairs_if_in. unfold dpairs. rewrite in_flat_map. split.
  + intros (H1 & H2 & H3). exists i. split; [exact H1|]. apply in_map_iff. exists j. split; [reflexivity|]. apply filter_In. auto.
  + intros (k & H1 & H2). apply in_map_iff in H2. destruct H2 as (q & E & H2). injection E as <- <-. apply filter_In in H2. destruct H2. auto.
Qed.
Lemma over_lt_pairs n q w : over_pairs (lt_pairs n) (fun i j => q i j (w i j)) = prob_wundirected n q w.
Proof.
  rewrite over_pairs_lprod, (ProofsEnsemble.lprod_perm _ _ _ (lt_upairs n)). unfold upairs, prob_wundirected. rewrite lprod_flat_map, lprod_seq. apply rprod_ext. intros i Hi.
  rewrite lprod_map. apply lprod_seq.
Qed.
Lemma over_neq_pairs n q w : over_pairs (neq_pairs n) (fun i j => q i j (w i j)) = prob_wdirected n q w.
Proof.
  rewrite over_pairs_lprod, (ProofsEnsemble.lprod_perm _ _ _ (neq_dpairs n)). unfold dpairs, prob_wdirected. rewrite lprod_flat_map, lprod_seq. apply rprod_ext. intros i Hi.
  rewrite lprod_map, lprod_filter, lprod_seq. apply rprod_ext. intros j Hj. cbn [fst snd]. destruct (Nat.eqb i j); reflexivity.
Qed.

Lemma NoDup_lt n : NoDup (lt_pairs n).
Proof. rewrite lt_pairs_eq. apply NoDup_pairs_if; apply seq_NoDup. Qed.
Lemma NoDup_neq n : NoDup (neq_pairs n).
Proof. rewrite neq_pairs_eq. apply NoDup_pairs_if; apply seq_NoDup. Qed.
Lemma ecm_files_law G (draw : R -> R -> gstate G) (x y : list R) (w : nat -> nat -> nat) : numpy_contract G -> uniform_then_geometric G draw ->
  let n := List.length x in (forall i j, (i < j < n)%nat -> 0 <= mul2 x x i j /\ 0 <= mul2 y y i j < 1) ->
  probn (2 * List.length (lt_pairs n)) (fun us => same_lines
      (outcomes G (int_outcome G (p_enh (mul2 x x) (mul2 y y)) (mul2 y y)) (lt_pairs n) (states_of draw us)) (weight_lines w (lt_pairs n)))
    (prob_wundirected n (fun i j => q_enh (mul2 x x i j) (mul2 y y i j)) w).
Proof.
  intros HG HD n HP. rewrite <- over_lt_pairs. apply int_law; [exact HG|exact HD|apply NoDup_lt|]. intros i j H. apply HP, in_lt_pairs, H.
Qed.
Lemma decm_files_law G (draw : R -> R -> gstate G) (x y b c : list R) (w : nat -> nat -> nat) : numpy_contract G -> uniform_then_geometric G draw ->
  let n := List.length x in (forall i j, (i < n)%nat -> (j < n)%nat -> i <> j -> 0 <= mul2 x y i j /\ 0 <= mul2 b c i j < 1) ->
  probn (2 * List.length (neq_pairs n)) (fun us => same_lines
      (outcomes G (int_outcome G (p_enh (mul2 x y) (mul2 b c)) (mul2 b c)) (neq_pairs n) (states_of draw us)) (weight_lines w (neq_pairs n)))
    (prob_wdirected n (fun i j => q_enh (mul2 x y i j) (mul2 b c i j)) w).
Proof.
  intros HG HD n HP. rewrite <- over_neq_pairs. apply int_law; [exact HG|exact HD|apply NoDup_neq|]. intros i j H. apply in_neq_pairs in H. destruct H as (H1 & H2 & H3). apply HP; assumption.
Qed.

(** * Real weights *)
Definition has_real (t : option R) (r : option (nat * nat * fval)) : bool :=
  match t, r with
  | Some a, Some (_, Fin w) => if Rlt_dec a w then true else false
  | None, None => true
  | _, _ => false
  end.
Lemma real_outcome_pair G p b e s v : real_outcome G p b e s = Some v -> fst v = e.
Proof.
  unfold real_outcome. destruct (random_sample G s) as [u s1]. destruct (Rlt_dec _ _); [|discriminate]. destruct (exponential _ _ _) as [[w s2]|]; [|discriminate]. intros E. injection E as <-. reflexivity.
Qed.
Lemma real_lines_step t e l r lines : ~ In e l -> (forall v, In v lines -> In (fst v) l) -> (forall v, r = Some v -> fst v = e /\ True) ->
  threshold_lines t (e :: l) (match r with Some v => [v] | None => [] end ++ lines) = has_real (t (fst e) (snd e)) r && threshold_lines t l lines.
Proof.
  intros HI HL HR. unfold threshold_lines. cbn [filter].
  assert (HF : ~ In e (filter (fun e => match t (fst e) (snd e) with Some _ => true | None => false end) l)) by (intros H; apply filter_In in H; apply HI, H).
  assert (HM : ~ In e (map fst lines)) by (intros H; apply in_map_iff in H; destruct H as (v & <- & H); apply HI, HL, H).
  destruct r as [[e' k]|]; cbn [app].
  - destruct (HR _ eq_refl) as (E1 & _). cbn [fst] in E1. subst e'. cbn [map fst snd forallb]. destruct (t (fst e) (snd e)) as [a|] eqn:ET; cbn [has_real].
    + rewrite same_links_cons. destruct k as [w| | |]; [destruct (Rlt_dec a w)| | |]; cbn [andb]; rewrite ?andb_false_r; try reflexivity.
    + rewrite (same_links_no e (map fst lines) _ HF). reflexivity.
  - cbn [has_real]. destruct (t (fst e) (snd e)) as [a|]; [|reflexivity]. rewrite (same_links_no' e (map fst lines) _ HM). reflexivity.
Qed.
Lemma real_outcome_prob G (draw : R -> R -> gstate G) (p b : nat -> nat -> R) e t : uniform_then_exponential G draw ->
  0 <= p (fst e) (snd e) <= 1 -> 0 < b (fst e) (snd e) -> (forall a, t = Some a -> 0 <= a) ->
  prob2 (fun u v => has_real t (real_outcome G p b e (draw u v)))
    (match t with Some a => p (fst e) (snd e) * exp (- b (fst e) (snd e) * a) | None => 1 - p (fst e) (snd e) end).
Proof.
  intros HD HP HB HT. destruct e as [i j]. cbn [fst snd] in *.
  assert (HQ : 0 < 1 / b i j) by (apply Rdiv_lt_0_compat; lra).
  destruct t as [a|].
  - replace (p i j * exp (- b i j * a)) with (p i j * exp (- a / (1 / b i j)) + (1 - p i j) * 0) by (replace (- a / (1 / b i j)) with (- b i j * a) by (field; lra); ring).
    apply prob2_step; [exact HP|]. intros u Hu. destruct (HD u Hu _ HQ) as (W & HW & HE). destruct (Rlt_dec u (p i j)) as [H|H].
    + eapply prob1_ext; [|exact (HW a (HT a eq_refl))]. intros v Hv. destruct (HE v Hv) as (s1 & s2 & R1 & R2). unfold real_outcome. rewrite R1. cbn [fst snd]. destruct (Rlt_dec u (p i j)); [|contradiction]. rewrite R2. reflexivity.
    + eapply prob1_ext; [|exact (prob1_const false)]. intros v Hv. destruct (HE v Hv) as (s1 & s2 & R1 & R2). unfold real_outcome. rewrite R1. cbn [fst snd]. destruct (Rlt_dec u (p i j)); [contradiction|]. reflexivity.
  - replace (1 - p i j) with (p i j * 0 + (1 - p i j) * 1) by ring.
    apply prob2_step; [exact HP|]. intros u Hu. destruct (HD u Hu _ HQ) as (W & HW & HE). destruct (Rlt_dec u (p i j)) as [H|H].
    + eapply prob1_ext; [|exact (prob1_const false)]. intros v Hv. destruct (HE v Hv) as (s1 & s2 & R1 & R2). unfold real_outcome. rewrite R1. cbn [fst snd]. destruct (Rlt_dec u (p i j)); [|contradiction]. rewrite R2. reflexivity.
    + eapply prob1_ext; [|exact (prob1_const true)]. intros v Hv. destruct (HE v Hv) as (s1 & s2 & R1 & R2). unfold real_outcome. rewrite R1. cbn [fst snd]. destruct (Rlt_dec u (p i j)); [contradiction|]. reflexivity.
Qed.
Lemma real_law G (draw : R -> R -> gstate G) (p b : nat -> nat -> R) (t : nat -> nat -> option R) pairs : uniform_then_exponential G draw -> NoDup pairs ->
  (forall i j, In (i, j) pairs -> 0 <= p i j <= 1 /\ 0 < b i j /\ forall a, t i j = Some a -> 0 <= a) ->
  probn (2 * List.length pairs) (fun us => threshold_lines t pairs (outcomes G (real_outcome G p b) pairs (states_of draw us)))
    (over_pairs pairs (fun i j => match t i j with Some a => p i j * exp (- b i j * a) | None => 1 - p i j end)).
Proof.
  intros HD HN HP.
  refine (pairs_law G (real_outcome G p b) draw fst (fun _ => True) (fun e => has_real (t (fst e) (snd e)))
    (fun i j => match t i j with Some a => p i j * exp (- b i j * a) | None => 1 - p i j end) (threshold_lines t) _ _ _ pairs HN _).
  - intros e s v H. split; [eapply real_outcome_pair, H|exact I].
  - reflexivity.
  - intros e l r lines. apply real_lines_step.
  - intros [i j] HI. destruct (HP i j HI) as (H1 & H2 & H3). apply (real_outcome_prob G draw p b (i, j)); assumption.
Qed.
(** An edge list without repetition, with the probability of each position. *)
Lemma listed_outcomes G (b p : nat -> nat -> R) pairs states :
  outcomes G (listed_outcome G b) (map (fun e => (e, p (fst e) (snd e))) pairs) states = outcomes G (real_outcome G p b) pairs states.
Proof.
  revert states. induction pairs as [|e pairs IH]; intros [|s states]; [reflexivity|reflexivity|reflexivity|]. cbn [map]. rewrite !outcomes_cons, IH. reflexivity.
Qed.
