(** The samplers: schedule independence, form of the graphs, files. *)
From Coq Require Import Reals List Arith Bool ZArith Permutation String DecimalString DecimalNat Lia Lra.
From Coquelicot Require Import Coquelicot.
From Verif Require Import Base SpecEnsemble ProofsEnsemble ModelDCM ModelLinsearch ModelSampler SpecSampler ProofsSampler.
Import ListNotations.
Local Open Scope R_scope.

(** * The items *)
Lemma cm_items x : map (fun p => (fst (fst p), fst (snd p))) (pairs_if (fun a b => Nat.ltb (fst a) (fst b)) (zip2 x) (zip2 (A:=R) x)) =
  pairs_if Nat.ltb (seq 0 (List.length x)) (seq 0 (List.length x)).
Proof. rewrite (pairs_if_map Nat.ltb fst fst). change (zip2 x) with (zip_inds (List.length x) x). rewrite (zip_fst (List.length x) x eq_refl). reflexivity. Qed.
Lemma ecm_items x y : List.length y = List.length x -> let z := zip3 (A:=R) (B:=R) (List.length x) x y in
  map (fun p => (fst (fst (fst p)), fst (fst (snd p)))) (pairs_if (fun a b => Nat.ltb (fst (fst a)) (fst (fst b))) z z) =
  pairs_if Nat.ltb (seq 0 (List.length x)) (seq 0 (List.length x)).
Proof.
  intros HY z. unfold z. rewrite (pairs_if_map Nat.ltb (fun a => fst (fst a)) (fun a => fst (fst a))).
  rewrite (zip3_fst (List.length x) x y eq_refl HY). reflexivity.
Qed.
Lemma dcm_items x y : List.length y = List.length x ->
  map (fun p => (fst (fst p), fst (snd p))) (pairs_if (fun a b => negb (Nat.eqb (fst a) (fst b))) (zip_inds (A:=R) (List.length x) x) (zip_inds (A:=R) (List.length x) y)) =
  pairs_if (fun i j => negb (Nat.eqb i j)) (seq 0 (List.length x)) (seq 0 (List.length x)).
Proof.
  intros HY. rewrite (pairs_if_map (fun i j => negb (Nat.eqb i j)) fst fst). rewrite !zip_fst by assumption || reflexivity. reflexivity.
Qed.
Lemma decm_items x y z w : List.length y = List.length x -> List.length z = List.length x -> List.length w = List.length x ->
  map (fun p => (fst (fst (fst p)), fst (fst (snd p)))) (pairs_if (fun a b => negb (Nat.eqb (fst (fst a)) (fst (fst b))))
    (zip3 (A:=R) (B:=R) (List.length x) x z) (zip3 (A:=R) (B:=R) (List.length x) y w)) =
  pairs_if (fun i j => negb (Nat.eqb i j)) (seq 0 (List.length x)) (seq 0 (List.length x)).
Proof.
  intros HY HZ HW. rewrite (pairs_if_map (fun i j => negb (Nat.eqb i j)) (fun a => fst (fst a)) (fun a => fst (fst a))). rewrite !zip3_fst by assumption || reflexivity. reflexivity.
Qed.
Lemma length_of_map {A B} (g : A -> B) l l' : map g l = l' -> List.length l = List.length l'.
Proof. intros <-. symmetry. apply map_length. Qed.
Lemma lookup_pairs_items beta beta' l items : lookup_pairs beta beta' l = Some items -> map (fun p => (fst (fst p), fst (snd p))) items = l.
Proof.
  unfold lookup_pairs. intros H. apply collect_some in H. revert items H. induction l as [|[i j] l IH]; intros items H; [destruct items; [reflexivity|discriminate]|].
  destruct items as [|p items]; [discriminate|]. cbn [map] in H. injection H as Hp H. cbn [map]. rewrite (IH items H). f_equal.
  cbn [fst snd] in Hp. destruct (nth_error beta i); [|discriminate]. destruct (nth_error beta' j); [|discriminate]. injection Hp as <-. reflexivity.
Qed.
Lemma lookup_sparse_items bo bi x y l items : lookup_sparse bo bi x y l = Some items -> map (fun p => (fst (fst (fst p)), fst (fst (snd p)))) items = l.
Proof.
  unfold lookup_sparse. intros H. apply collect_some in H. revert items H. induction l as [|[i j] l IH]; intros items H; [destruct items; [reflexivity|discriminate]|].
  destruct items as [|p items]; [discriminate|]. cbn [map] in H. injection H as Hp H. cbn [map]. rewrite (IH items H). f_equal.
  cbn [fst snd] in Hp. destruct (nth_error bo i); [|discriminate]. destruct (nth_error x i); [|discriminate]. destruct (nth_error bi j); [|discriminate]. destruct (nth_error y j); [|discriminate]. injection Hp as <-. reflexivity.
Qed.
Lemma prob_items beta beta' row col (w : list R) items : List.length row = List.length w -> List.length col = List.length w ->
  lookup_pairs beta beta' (firstn (List.length w) (combine row col)) = Some items ->
  map (fun p => (fst (fst (fst p)), fst (snd (fst p)))) (combine items w) = combine row col.
Proof.
  intros H1 H2 H. assert (HL : List.length (combine row col) = List.length w) by (rewrite combine_length; lia).
  rewrite <- HL, firstn_all in H. apply lookup_pairs_items in H. rewrite <- (map_map fst (fun q => (fst (fst q), fst (snd q)))).
  rewrite combine_map_fst; [exact H|]. rewrite (length_of_map _ _ _ H). exact HL.
Qed.

(** * Schedule independence (C51) *)
Section Same.
Variable G : generator.
Hypothesis HG : numpy_contract G.
Lemma sample_same {A L} (f : A * Z -> gstate G -> option (option L * gstate G)) items k cpu cpu' s s' c c' :
  reseeds G f -> valid_choice G cpu (List.length items) c -> valid_choice G cpu' (List.length items) c' ->
  sample_graph G f items cpu (Some k) s c = sample_graph G f items cpu' (Some k) s' c'.
Proof.
  intros HF HC HC'. destruct (np_seed G k) as [s0|] eqn:E.
  - rewrite (sample_graph_value G HG f items cpu (Some k) s c s0 HF HC E), (sample_graph_value G HG f items cpu' (Some k) s' c' s0 HF HC' E). reflexivity.
  - unfold sample_graph. cbn [maybe_seed]. rewrite E. reflexivity.
Qed.
End Same.
Lemma cm_same G x k cpu cpu' s s' c c' : numpy_contract G -> let n := List.length x in
  valid_choice G cpu (n * (n - 1) / 2) c -> valid_choice G cpu' (n * (n - 1) / 2) c' ->
  ensemble_sampler_cm_graph G x cpu (Some k) s c = ensemble_sampler_cm_graph G x cpu' (Some k) s' c'.
Proof.
  intros HG n HC HC'. pose proof (length_of_map _ _ _ (cm_items x)) as HL. rewrite lt_pairs_length in HL. fold n in HL. rewrite <- HL in HC, HC'.
  apply sample_same; [exact HG| |exact HC|exact HC']. intros a q t _. reflexivity.
Qed.
Lemma ecm_same G x y k cpu cpu' s s' c c' : numpy_contract G -> let n := List.length x in List.length y = n ->
  valid_choice G cpu (n * (n - 1) / 2) c -> valid_choice G cpu' (n * (n - 1) / 2) c' ->
  ensemble_sampler_ecm_graph G x y cpu (Some k) s c = ensemble_sampler_ecm_graph G x y cpu' (Some k) s' c'.
Proof.
  intros HG n HY HC HC'. pose proof (length_of_map _ _ _ (ecm_items x y HY)) as HL. rewrite lt_pairs_length in HL. fold n in HL. rewrite <- HL in HC, HC'.
  apply sample_same; [exact HG| |exact HC|exact HC']. intros a q t _. reflexivity.
Qed.
Lemma dcm_same G x y k cpu cpu' s s' c c' : numpy_contract G -> let n := List.length x in List.length y = n ->
  valid_choice G cpu (n * (n - 1)) c -> valid_choice G cpu' (n * (n - 1)) c' ->
  ensemble_sampler_dcm_graph G x y cpu (Some k) s c = ensemble_sampler_dcm_graph G x y cpu' (Some k) s' c'.
Proof.
  intros HG n HY HC HC'. pose proof (length_of_map _ _ _ (dcm_items x y HY)) as HL. rewrite neq_pairs_length in HL. fold n in HL. rewrite <- HL in HC, HC'.
  apply sample_same; [exact HG| |exact HC|exact HC']. intros a q t _. reflexivity.
Qed.
Lemma decm_same G x y z w k cpu cpu' s s' c c' : numpy_contract G -> let n := List.length x in
  List.length y = n -> List.length z = n -> List.length w = n ->
  valid_choice G cpu (n * (n - 1)) c -> valid_choice G cpu' (n * (n - 1)) c' ->
  ensemble_sampler_decm_graph G x y z w cpu (Some k) s c = ensemble_sampler_decm_graph G x y z w cpu' (Some k) s' c'.
Proof.
  intros HG n HY HZ HW HC HC'. pose proof (length_of_map _ _ _ (decm_items x y z w HY HZ HW)) as HL. rewrite neq_pairs_length in HL. fold n in HL. rewrite <- HL in HC, HC'.
  apply sample_same; [exact HG| |exact HC|exact HC']. intros a q t _. reflexivity.
Qed.
Lemma crema_det_same G b b' row col w k cpu cpu' s s' c c' : numpy_contract G -> List.length col = List.length row ->
  valid_choice G cpu (List.length row) c -> valid_choice G cpu' (List.length row) c' ->
  ensemble_sampler_crema_det_graph G b b' (row, col, w) cpu (Some k) s c = ensemble_sampler_crema_det_graph G b b' (row, col, w) cpu' (Some k) s' c'.
Proof.
  intros HG HL HC HC'. unfold ensemble_sampler_crema_det_graph. destruct (lookup_pairs b b' (combine row col)) as [items|] eqn:E; [|reflexivity].
  apply lookup_pairs_items in E. apply length_of_map in E. rewrite combine_length, HL, Nat.min_id in E. rewrite <- E in HC, HC'.
  apply sample_same; [exact HG| |exact HC|exact HC']. intros a q t _. reflexivity.
Qed.
Lemma crema_prob_same G b b' row col w k cpu cpu' s s' c c' : numpy_contract G -> List.length row = List.length w -> List.length col = List.length w ->
  valid_choice G cpu (List.length w) c -> valid_choice G cpu' (List.length w) c' ->
  ensemble_sampler_crema_prob_graph G b b' (row, col, w) cpu (Some k) s c = ensemble_sampler_crema_prob_graph G b b' (row, col, w) cpu' (Some k) s' c'.
Proof.
  intros HG H1 H2 HC HC'. unfold ensemble_sampler_crema_prob_graph. destruct (lookup_pairs _ _ _) as [items|] eqn:E; [|reflexivity].
  apply (prob_items b b' row col w items H1 H2) in E. apply length_of_map in E. rewrite (combine_length row), H1, H2, Nat.min_id in E. rewrite <- E in HC, HC'.
  apply sample_same; [exact HG| |exact HC|exact HC']. intros a q t _. reflexivity.
Qed.
Lemma crema_sparse_same G bo bi x y k cpu cpu' s s' c c' : numpy_contract G -> let n := List.length x in
  valid_choice G cpu (n * (n - 1)) c -> valid_choice G cpu' (n * (n - 1)) c' ->
  ensemble_sampler_crema_sparse_prob_graph G bo bi x y cpu (Some k) s c = ensemble_sampler_crema_sparse_prob_graph G bo bi x y cpu' (Some k) s' c'.
Proof.
  intros HG n HC HC'. unfold ensemble_sampler_crema_sparse_prob_graph. fold n. destruct (lookup_sparse _ _ _ _ _) as [items|] eqn:E; [|reflexivity].
  apply lookup_sparse_items in E. apply length_of_map in E. rewrite neq_pairs_length in E. rewrite <- E in HC, HC'.
  apply sample_same; [exact HG| |exact HC|exact HC']. intros a q t _. reflexivity.
Qed.

(** * Form of the sampled graphs (C50, C53) *)
Lemma sample_form G {A L} (f : A * Z -> gstate G -> option (option L * gstate G)) items cpu seed s c l s'
    (pr : L -> nat * nat) (idx : A -> nat * nat) (P : A -> L -> Prop) :
  numpy_contract G -> reseeds G f -> valid_choice G cpu (List.length items) c ->
  (forall a k s v s', In a items -> (0 <= k < 1000000)%Z -> f (a, k) s = Some (Some v, s') -> pr v = idx a /\ P a v) ->
  sample_graph G f items cpu seed s c = Some (l, s') ->
  sublist (map pr l) (map idx items) /\ (forall v, In v l -> exists a, In a items /\ pr v = idx a /\ P a v).
Proof.
  intros HG HF HC HP. destruct (maybe_seed G seed s) as [s0|] eqn:E.
  - rewrite (sample_graph_value G HG f items cpu seed s c s0 HF HC E). apply (sample_value_form G HG); exact HP.
  - unfold sample_graph. rewrite E. discriminate.
Qed.
Lemma und_of_sub n (l : list (nat * nat)) : sublist l (pairs_if Nat.ltb (seq 0 n) (seq 0 n)) -> und_pairs n l.
Proof.
  intros HS. split; [apply (sublist_NoDup _ _ HS), NoDup_pairs_if; apply seq_NoDup|]. intros i j HI. apply (sublist_in _ _ _ HS) in HI.
  apply pairs_if_in in HI. destruct HI as (_ & HJ & E). apply in_seq in HJ. apply Nat.ltb_lt in E. lia.
Qed.
Lemma dir_of_sub n (l : list (nat * nat)) : sublist l (pairs_if (fun i j => negb (Nat.eqb i j)) (seq 0 n) (seq 0 n)) -> dir_pairs n l.
Proof.
  intros HS. split; [apply (sublist_NoDup _ _ HS), NoDup_pairs_if; apply seq_NoDup|]. intros i j HI. apply (sublist_in _ _ _ HS) in HI.
  apply pairs_if_in in HI. destruct HI as (HI & HJ & E). apply in_seq in HI. apply in_seq in HJ. destruct (Nat.eqb_spec i j); [discriminate|]. lia.
Qed.
Lemma cm_form G x cpu seed s c l s' : numpy_contract G -> let n := List.length x in
  valid_choice G cpu (n * (n - 1) / 2) c -> ensemble_sampler_cm_graph G x cpu seed s c = Some (l, s') -> und_pairs n l.
Proof.
  intros HG n HC E. pose proof (length_of_map _ _ _ (cm_items x)) as HL. rewrite lt_pairs_length in HL. fold n in HL. rewrite <- HL in HC.
  unfold ensemble_sampler_cm_graph in E.
  apply (sample_form G _ _ _ _ _ _ _ _ (fun e => e) (fun p => (fst (fst p), fst (snd p))) (fun _ _ => True)) in E; [|exact HG|intros a q t _; reflexivity|exact HC|].
  - destruct E as [E _]. rewrite map_id, cm_items in E. apply und_of_sub, E.
  - intros [[i xi] [j xj]] k t v t' _ Hk. cbn [fst snd]. unfold is_a_link_cm, maybe_seed. rewrite np_seed_ok by exact Hk. destruct (random_sample G (seeded G k)) as [p t2].
    destruct (flt _ _); [|discriminate]. intros F. injection F as <- _. auto.
Qed.
Lemma dcm_form G x y cpu seed s c l s' : numpy_contract G -> let n := List.length x in List.length y = n ->
  valid_choice G cpu (n * (n - 1)) c -> ensemble_sampler_dcm_graph G x y cpu seed s c = Some (l, s') -> dir_pairs n l.
Proof.
  intros HG n HY HC E. pose proof (length_of_map _ _ _ (dcm_items x y HY)) as HL. rewrite neq_pairs_length in HL. fold n in HL. rewrite <- HL in HC.
  unfold ensemble_sampler_dcm_graph in E.
  apply (sample_form G _ _ _ _ _ _ _ _ (fun e => e) (fun p => (fst (fst p), fst (snd p))) (fun _ _ => True)) in E; [|exact HG|intros a q t _; reflexivity|exact HC|].
  - destruct E as [E _]. rewrite map_id, dcm_items in E by exact HY. apply dir_of_sub, E.
  - intros [[i xi] [j xj]] k t v t' _ Hk. cbn [fst snd]. unfold is_a_link_dcm, maybe_seed. rewrite np_seed_ok by exact Hk. destruct (random_sample G (seeded G k)) as [p t2].
    destruct (flt _ _); [|discriminate]. intros F. injection F as <- _. auto.
Qed.
Lemma geometric_ge1 G p s w s' : numpy_contract G -> geometric G p s = Some (w, s') -> (1 <= w)%nat /\ 0 < p <= 1.
Proof.
  intros (_ & _ & H1 & H2 & _) E. assert (HP : 0 < p <= 1).
  { destruct (Rlt_dec 0 p) as [H3|H3]; [destruct (Rle_dec p 1) as [H4|H4]|]; [auto| |]; rewrite H2 in E by (intros [H5 H6]; contradiction); discriminate. }
  split; [|exact HP]. destruct (H1 p s HP) as (w' & s2 & E' & HW). rewrite E in E'. injection E' as -> _. exact HW.
Qed.
Lemma ecm_form G x y cpu seed s c l s' : numpy_contract G -> let n := List.length x in List.length y = n ->
  valid_choice G cpu (n * (n - 1) / 2) c -> ensemble_sampler_ecm_graph G x y cpu seed s c = Some (l, s') ->
  und_pairs n (map fst l) /\ forall e w, In (e, w) l -> (1 <= w)%nat.
Proof.
  intros HG n HY HC E. pose proof (length_of_map _ _ _ (ecm_items x y HY)) as HL. rewrite lt_pairs_length in HL. fold n in HL. rewrite <- HL in HC.
  unfold ensemble_sampler_ecm_graph in E.
  apply (sample_form G _ _ _ _ _ _ _ _ fst (fun p => (fst (fst (fst p)), fst (fst (snd p)))) (fun _ v => (1 <= snd v)%nat)) in E; [|exact HG|intros a q t _; reflexivity|exact HC|].
  - destruct E as [E1 E2]. rewrite ecm_items in E1 by exact HY. split; [apply und_of_sub, E1|]. intros e w HI. destruct (E2 _ HI) as (a & _ & _ & H). exact H.
  - intros [[[i xi] yi] [[j xj] yj]] k t v t' _ Hk. cbn [fst snd]. unfold is_a_link_ecm, maybe_seed. rewrite np_seed_ok by exact Hk. destruct (random_sample G (seeded G k)) as [p t2].
    destruct (flt _ _); [|discriminate]. destruct (geometric _ _ _) as [[w t3]|] eqn:EG; [|discriminate]. intros F. injection F as <- _. split; [reflexivity|]. apply (geometric_ge1 _ _ _ _ _ HG EG).
Qed.
Lemma decm_form G x y z w cpu seed s c l s' : numpy_contract G -> let n := List.length x in List.length y = n -> List.length z = n -> List.length w = n ->
  valid_choice G cpu (n * (n - 1)) c -> ensemble_sampler_decm_graph G x y z w cpu seed s c = Some (l, s') ->
  dir_pairs n (map fst l) /\ forall e w, In (e, w) l -> (1 <= w)%nat.
Proof.
  intros HG n HY HZ HW HC E. pose proof (length_of_map _ _ _ (decm_items x y z w HY HZ HW)) as HL. rewrite neq_pairs_length in HL. fold n in HL. rewrite <- HL in HC.
  unfold ensemble_sampler_decm_graph in E.
  apply (sample_form G _ _ _ _ _ _ _ _ fst (fun p => (fst (fst (fst p)), fst (fst (snd p)))) (fun _ v => (1 <= snd v)%nat)) in E; [|exact HG|intros a q t _; reflexivity|exact HC|].
  - destruct E as [E1 E2]. rewrite decm_items in E1 by assumption. split; [apply dir_of_sub, E1|]. intros e u HI. destruct (E2 _ HI) as (a & _ & _ & H). exact H.
  - intros [[[i xi] yi] [[j xj] yj]] k t v t' _ Hk. cbn [fst snd]. unfold is_a_link_decm, maybe_seed. rewrite np_seed_ok by exact Hk. destruct (random_sample G (seeded G k)) as [p t2].
    destruct (flt _ _); [|discriminate]. destruct (geometric _ _ _) as [[u t3]|] eqn:EG; [|discriminate]. intros F. injection F as <- _. split; [reflexivity|]. apply (geometric_ge1 _ _ _ _ _ HG EG).
Qed.
(** A weight drawn with a positive rate. *)
Definition drawn_weight (v : fval) : Prop := exists w, v = Fin w /\ 0 <= w.
Lemma exponential_ge0 G q s w s' : numpy_contract G -> 0 < q -> exponential G (Fin q) s = Some (w, s') -> drawn_weight w.
Proof. intros (_ & _ & _ & _ & H) HQ E. destruct (H q s HQ) as (w' & s2 & E' & HW). rewrite E in E'. injection E' as -> _. exists w'. auto. Qed.
Lemma fdiv_rate b : 0 < b -> fdiv 1 b = Fin (1 / b) /\ 0 < 1 / b.
Proof. intros HB. split; [unfold fdiv; destruct (Req_EM_T b 0); [lra|reflexivity]|]. apply Rdiv_lt_0_compat; lra. Qed.
Lemma lookup_in b b' l items a : lookup_pairs b b' l = Some items -> In a items ->
  In (fst (fst a), fst (snd a)) l /\ nth_error b (fst (fst a)) = Some (snd (fst a)) /\ nth_error b' (fst (snd a)) = Some (snd (snd a)).
Proof.
  unfold lookup_pairs. intros H. apply collect_some in H. intros HA. apply (in_map Some) in HA. rewrite <- H in HA. apply in_map_iff in HA.
  destruct HA as ([i j] & E & HI). cbn [fst snd] in E. destruct (nth_error b i) eqn:E1; [|discriminate]. destruct (nth_error b' j) eqn:E2; [|discriminate].
  injection E as <-. cbn [fst snd]. auto.
Qed.
(** The rates of the listed pairs are positive. *)
Definition positive_rates (b b' : list R) (l : list (nat * nat)) : Prop :=
  forall i j bi bj, In (i, j) l -> nth_error b i = Some bi -> nth_error b' j = Some bj -> 0 < bi + bj.
Lemma crema_det_form G b b' row col w cpu seed s c l s' : numpy_contract G -> List.length col = List.length row ->
  positive_rates b b' (combine row col) -> valid_choice G cpu (List.length row) c ->
  ensemble_sampler_crema_det_graph G b b' (row, col, w) cpu seed s c = Some (l, s') ->
  map fst l = combine row col /\ forall e v, In (e, v) l -> exists r, v = Fin r /\ 0 <= r.
Proof.
  intros HG HL HR HC. unfold ensemble_sampler_crema_det_graph. destruct (lookup_pairs b b' (combine row col)) as [items|] eqn:E; [|discriminate].
  pose proof (lookup_pairs_items _ _ _ _ E) as EI. pose proof (length_of_map _ _ _ EI) as EL. rewrite combine_length, HL, Nat.min_id in EL. rewrite <- EL in HC.
  assert (HF : reseeds G (fun t : (nat * R) * (nat * R) * Z => is_a_link_crema_det G (fst (fst t)) (snd (fst t)) (Some (snd t)))) by (intros a q t _; reflexivity).
  intros ES. pose proof ES as ES'.
  apply (sample_form G _ _ _ _ _ _ _ _ fst (fun p => (fst (fst p), fst (snd p))) (fun _ v => drawn_weight (snd v))) in ES; [|exact HG|exact HF|exact HC|].
  - split; [|intros e v HI; destruct ES as [_ ES]; destruct (ES _ HI) as (a & _ & _ & H); exact H].
    rewrite <- EI. destruct (maybe_seed G seed s) as [s0|] eqn:EM; [|unfold sample_graph in ES'; rewrite EM in ES'; discriminate].
    rewrite (sample_graph_value G HG _ items cpu seed s c s0 HF HC EM) in ES'. unfold sample_value in ES'. pose proof (with_seeds_fst G items s0) as HW.
    destruct (with_seeds G items s0) as [tasks s1]. cbn [fst] in HW. destruct (collect _) as [e|] eqn:EC; [|discriminate]. injection ES' as <- _. apply collect_some in EC.
    rewrite <- HW. clear - EC. revert e EC. induction tasks as [|[[[i bi] [j bj]] k] tasks IH]; intros e EC; [destruct e; [reflexivity|discriminate]|].
    destruct e as [|v e]; [discriminate|]. cbn [map] in EC. injection EC as Ev EC. cbn [map fst snd drop_none flat_map].
    destruct (is_a_link_crema_det G (i, bi) (j, bj) (Some k) (seeded G k)) as [[v' t]|] eqn:EL.
    + cbn [fst snd option_map] in Ev. injection Ev as <-. unfold is_a_link_crema_det in EL. destruct (maybe_seed _ _ _); [|discriminate]. destruct (exponential _ _ _) as [[u t']|]; [|discriminate].
      injection EL as <- _. cbn [map fst]. rewrite map_app. cbn [map fst app]. f_equal. exact (IH e EC).
    + cbn [fst snd option_map] in Ev. discriminate.
  - intros [[i bi] [j bj]] k t v t' HA Hk. cbn [fst snd]. destruct (lookup_in _ _ _ _ _ E HA) as (H1 & H2 & H3). cbn [fst snd] in H1, H2, H3.
    pose proof (HR i j bi bj H1 H2 H3) as HP. destruct (fdiv_rate _ HP) as [HD HQ]. unfold is_a_link_crema_det, maybe_seed. rewrite np_seed_ok by exact Hk.
    rewrite HD. destruct (exponential _ _ _) as [[u t2]|] eqn:EE; [|discriminate]. intros F. injection F as <- _. split; [reflexivity|]. exact (exponential_ge0 G _ _ _ _ HG HQ EE).
Qed.
Lemma crema_prob_form G b b' row col w cpu seed s c l s' : numpy_contract G -> List.length row = List.length w -> List.length col = List.length w ->
  positive_rates b b' (combine row col) -> valid_choice G cpu (List.length w) c ->
  ensemble_sampler_crema_prob_graph G b b' (row, col, w) cpu seed s c = Some (l, s') ->
  sublist (map fst l) (combine row col) /\ forall e v, In (e, v) l -> exists r, v = Fin r /\ 0 <= r.
Proof.
  intros HG H1 H2 HR HC. unfold ensemble_sampler_crema_prob_graph. destruct (lookup_pairs _ _ _) as [items|] eqn:E; [|discriminate].
  pose proof (prob_items b b' row col w items H1 H2 E) as EI. pose proof (length_of_map _ _ _ EI) as EL. rewrite (combine_length row), H1, H2, Nat.min_id in EL. rewrite <- EL in HC.
  assert (HI0 : firstn (List.length w) (combine row col) = combine row col) by (rewrite <- (firstn_all (combine row col)) at 2; f_equal; rewrite combine_length; lia). rewrite HI0 in E.
  intros ES.
  apply (sample_form G _ _ _ _ _ _ _ _ fst (fun p => (fst (fst (fst p)), fst (snd (fst p)))) (fun _ v => drawn_weight (snd v))) in ES; [|exact HG|intros a q t _; reflexivity|exact HC|].
  - destruct ES as [E1 E2]. rewrite EI in E1. split; [exact E1|]. intros e v HI. destruct (E2 _ HI) as (a & _ & _ & H). exact H.
  - intros [[[i bi] [j bj]] pw] k t v t' HA Hk. cbn [fst snd]. apply in_combine_l in HA. destruct (lookup_in _ _ _ _ _ E HA) as (K1 & K2 & K3). cbn [fst snd] in K1, K2, K3.
    pose proof (HR i j bi bj K1 K2 K3) as HP. destruct (fdiv_rate _ HP) as [HD HQ]. unfold is_a_link_crema_prob, maybe_seed. rewrite np_seed_ok by exact Hk.
    destruct (random_sample _ _) as [u0 t2]. destruct (flt _ _); [|discriminate]. cbv zeta. rewrite HD. destruct (exponential _ _ _) as [[u t3]|] eqn:EE; [|discriminate].
    intros F. injection F as <- _. split; [reflexivity|]. exact (exponential_ge0 G _ _ _ _ HG HQ EE).
Qed.
Lemma crema_sparse_form G bo bi x y cpu seed s c l s' : numpy_contract G -> let n := List.length x in
  (forall i j bi' bj, (i < n)%nat -> (j < n)%nat -> nth_error bo i = Some bi' -> nth_error bi j = Some bj -> 0 < bi' + bj) ->
  valid_choice G cpu (n * (n - 1)) c ->
  ensemble_sampler_crema_sparse_prob_graph G bo bi x y cpu seed s c = Some (l, s') ->
  dir_pairs n (map fst l) /\ forall e v, In (e, v) l -> exists r, v = Fin r /\ 0 <= r.
Proof.
  intros HG n HR HC. unfold ensemble_sampler_crema_sparse_prob_graph. fold n. destruct (lookup_sparse _ _ _ _ _) as [items|] eqn:E; [|discriminate].
  pose proof (lookup_sparse_items _ _ _ _ _ _ E) as EI. pose proof (length_of_map _ _ _ EI) as EL. rewrite neq_pairs_length in EL. rewrite <- EL in HC. intros ES.
  apply (sample_form G _ _ _ _ _ _ _ _ fst (fun p => (fst (fst (fst p)), fst (fst (snd p)))) (fun _ v => drawn_weight (snd v))) in ES; [|exact HG|intros a q t _; reflexivity|exact HC|].
  - destruct ES as [E1 E2]. rewrite EI in E1. split; [apply dir_of_sub, E1|]. intros e v HI. destruct (E2 _ HI) as (a & _ & _ & H). exact H.
  - intros [[[i b1] x1] [[j b2] x2]] k t v t' HA Hk. cbn [fst snd].
    assert (HB : (i < n)%nat /\ (j < n)%nat /\ nth_error bo i = Some b1 /\ nth_error bi j = Some b2).
    { unfold lookup_sparse in E. apply collect_some in E. apply (in_map Some) in HA. rewrite <- E in HA. apply in_map_iff in HA. destruct HA as ([i' j'] & E' & HI). cbn [fst snd] in E'.
      destruct (nth_error bo i') eqn:F1; [|discriminate]. destruct (nth_error x i') eqn:F2; [|discriminate]. destruct (nth_error bi j') eqn:F3; [|discriminate]. destruct (nth_error y j'); [|discriminate].
      injection E' as <- <- <- <- <- <-. apply pairs_if_in in HI. destruct HI as (I1 & I2 & _). apply in_seq in I1. apply in_seq in I2. repeat split; try lia; assumption. }
    destruct HB as (K0 & K1 & K2 & K3). pose proof (HR i j b1 b2 K0 K1 K2 K3) as HP. destruct (fdiv_rate _ HP) as [HD HQ]. unfold is_a_link_crema_sparse, maybe_seed. rewrite np_seed_ok by exact Hk.
    destruct (random_sample _ _) as [u0 t2]. destruct (flt _ _); [|discriminate]. cbv zeta. rewrite HD. destruct (exponential _ _ _) as [[u t3]|] eqn:EE; [|discriminate].
    intros F. injection F as <- _. split; [reflexivity|]. exact (exponential_ge0 G _ _ _ _ HG HQ EE).
Qed.
