(** A concrete generator, and the cases that refute the claims. *)
From Coq Require Import Reals List Arith Bool ZArith Lia Lra.
From Verif Require Import Base ModelGenerators SpecGenerators ProofsGenerators ProofsMainGenerators ProofsGeneratorsTerm ProofsGeneratorsSeed.
Import ListNotations.
Local Open Scope R_scope.

(** Counts upwards; random numbers are 1/4, normal ones half a deviation below the mean. *)
Definition W : source := {|
  mstate := nat;
  m_seed := Z.to_nat;
  m_random := fun s => (/ 4, s);
  m_randint := fun n s => (Nat.modulo s n, S s);
  m_normal := fun m q s => (m - q / 2, S s)
|}.
Lemma W_contract : source_contract W.
Proof. split; [intros s; simpl; lra|]. intros n s H. simpl. apply Nat.mod_upper_bound. lia. Qed.
Lemma W_other n s ind : (2 <= n)%nat -> (s mod n <> ind \/ S s mod n <> ind)%nat.
Proof.
  intros H. destruct (Nat.eq_dec (s mod n) ind) as [E|E]; [right|left; exact E]. intros E2. rewrite <- E in E2.
  pose proof (Nat.mod_upper_bound s n ltac:(lia)) as B. pose proof (Nat.div_mod s n ltac:(lia)) as D.
  assert (X : (S s mod n = S (s mod n) \/ S s mod n = 0)%nat).
  { destruct (Nat.eq_dec (S (s mod n)) n) as [F|F].
    - right. symmetry. apply (Nat.mod_unique (S s) n (S (s / n)) 0); nia.
    - left. symmetry. apply (Nat.mod_unique (S s) n (s / n) (S (s mod n))); lia. }
  assert (Y : (s mod n = 0 -> S s mod n = 1)%nat).
  { intros Z. symmetry. apply (Nat.mod_unique (S s) n (s / n) 1); lia. }
  destruct X as [X|X]; [lia|]. rewrite X in E2. specialize (Y (eq_sym E2)). lia.
Qed.
Lemma W_fair sym (draw : nat -> R * nat) n : (2 <= n)%nat -> (forall s, snd (draw s) = s) -> (forall s, fst (draw s) <> 0) -> fair W sym draw n.
Proof.
  intros Hn HS HV. destruct sym; intros ind s Hi; destruct (W_other n s ind Hn) as [H|H].
  - exists 0%nat. simpl. split; [exact H|apply HV].
  - destruct (Nat.eq_dec (s mod n) ind) as [E|E]; [|exists 0%nat; split; [exact E|apply HV]]. exists 1%nat.
    assert (ES : iter 1 (sym_step W draw n ind) s = S s) by (cbn [iter]; unfold sym_step, sym_node; cbn [W m_randint fst snd]; rewrite E, Nat.eqb_refl; reflexivity).
    cbv zeta. rewrite ES. split; [exact H|apply HV].
  - exists 0%nat. cbn [iter]. unfold dir_node, dir_value. cbn [W m_random m_randint fst snd]. rewrite HS. split; [exact H|apply HV].
  - exists 1%nat. assert (ES : iter 1 (dir_step W draw n) s = S s) by (cbn [iter]; unfold dir_step; cbn [W m_random m_randint fst snd]; rewrite HS; reflexivity).
    cbv zeta. rewrite ES. unfold dir_node, dir_value. cbn [W m_random m_randint fst snd]. rewrite HS. split; [exact H|apply HV].
Qed.
Lemma W_const sym n : (2 <= n)%nat -> fair W sym (const_draw W 1) n.
Proof. intros H. apply W_fair; [exact H|reflexivity|]. intros s. simpl. lra. Qed.
Lemma W_scaled sym n sup_ext : (2 <= n)%nat -> 0 < sup_ext -> fair W sym (scaled_draw W sup_ext) n.
Proof. intros H Hs. apply W_fair; [exact H|reflexivity|]. intros s. simpl. apply Rmult_integral_contrapositive_currified; lra. Qed.

(** The hypotheses of the theorems on validity are met, for every size from two on. *)
Lemma W_returns n p sup_ext sym iw : (2 <= n)%nat -> 0 < sup_ext -> source_contract W /\
  (exists fuel A, random_binary_matrix_generator_dense W fuel n sym (Some 42%Z) 0%nat = Returned A) /\
  (exists fuel A, random_binary_matrix_generator_custom_density W fuel n p sym (Some 42%Z) 0%nat = Returned A) /\
  (exists fuel A, random_weighted_matrix_generator_dense W fuel n sup_ext sym (Some 42%Z) iw 0%nat = Returned A) /\
  (exists fuel A, random_weighted_matrix_generator_uniform_custom_density W fuel n p sup_ext sym (Some 42%Z) iw 0%nat = Returned A).
Proof.
  intros Hn Hs. assert (HV : valid_seed (Some 42%Z)) by (simpl; lia). split; [exact W_contract|repeat split].
  - apply binary_dense_returns; [exact W_contract|exact HV|apply W_const, Hn].
  - apply binary_custom_returns; [exact W_contract|exact HV|apply W_const, Hn].
  - apply weighted_dense_returns; [exact W_contract|lra|exact HV|apply W_scaled; assumption].
  - apply weighted_uniform_returns; [exact W_contract|lra|exact HV|apply W_scaled; assumption].
Qed.

(** Two nodes, every link present, weights of mean 0 and deviation 1. *)
Lemma W_gaussian iw : exists A,
  random_weighted_matrix_generator_gaussian_custom_density W 0 2 0 1 1 false (Some 42%Z) iw 0%nat = Returned A /\
  A 0%nat 1%nat = (if iw then 0 else - / 2) /\ A 1%nat 0%nat = (if iw then 0 else - / 2) /\ A 0%nat 0%nat = 0 /\ A 1%nat 1%nat = 0.
Proof.
  unfold random_weighted_matrix_generator_gaussian_custom_density. cbn [reseed]. set (s0 := m_seed W 42). cbn [negb].
  replace ((0 <=? 42) && (42 <? 4294967296))%Z with true by reflexivity. cbn [W].
  assert (EC : forall s, exists t, random_cells W 1 (m_normal W 0 1) 2 s =
     (upd2 (upd2 (upd2 (upd2 zeros 0 0 (0 - 1 / 2)) 0 1 (0 - 1 / 2)) 1 0 (0 - 1 / 2)) 1 1 (0 - 1 / 2), t)).
  { intros s. unfold random_cells, all_cells. cbn [list_prod seq map app fold_left fst snd W m_random m_normal]. destruct (Rle_dec (/ 4) 1) as [_|N]; [|exfalso; apply N; lra]. cbn [fst snd]. eexists. reflexivity. }
  destruct (EC s0) as [t ->]. set (A := fill_diagonal _).
  assert (A00 : A 0%nat 0%nat = 0) by reflexivity. assert (A01 : A 0%nat 1%nat = 0 - 1 / 2) by reflexivity. assert (A10 : A 1%nat 0%nat = 0 - 1 / 2) by reflexivity. assert (A11 : A 1%nat 1%nat = 0) by reflexivity.
  clearbody A. assert (ER : repair_all W (isolated_dir 2 A) (fun ind => repair_dir W (m_normal W 0 1) 2 ind 0) 2 A t = Some (A, t)).
  { unfold repair_all. cbn [seq fold_left]. assert (K : forall i, (i < 2)%nat -> isolated_dir 2 A i = false).
    { intros i Hi. unfold isolated_dir, col_sum, row_sum, rsum. apply andb_false_iff. left. apply eq0_false. destruct i as [|[|i]]; [| |lia]; rewrite ?A00, ?A01, ?A10, ?A11; lra. }
    rewrite !K by lia. reflexivity. }
  change (m_normal W) with (m_normal W) in ER. cbn [W] in ER. rewrite ER. unfold output. eexists. split; [reflexivity|]. destruct iw.
  - rewrite A00, A01, A10, A11, ceil_0. assert (E : ceil (0 - 1 / 2) = 0) by (unfold ceil; rewrite (Int_part_unique _ 0) by lra; reflexivity). rewrite E. auto.
  - rewrite A00, A01, A10, A11. repeat split; lra.
Qed.
Lemma W_normal_nonzero : normal_nonzero W 0 1.
Proof. intros s. simpl. lra. Qed.
(** Gaussian weights: negative entries. *)
Lemma gaussian_negative : exists G fuel n mean sigma p sym seed entropy A, source_contract G /\ normal_nonzero G mean sigma /\
  random_weighted_matrix_generator_gaussian_custom_density G fuel n mean sigma p sym seed false entropy = Returned A /\ exists i j, (i < n)%nat /\ (j < n)%nat /\ A i j < 0.
Proof.
  destruct (W_gaussian false) as (A & E & H01 & _). exists W, 0%nat, 2%nat, 0, 1, 1, false, (Some 42%Z), 0%nat, A.
  split; [exact W_contract|split; [exact W_normal_nonzero|split; [exact E|]]]. exists 0%nat, 1%nat. rewrite H01. repeat split; try lia. lra.
Qed.
(** Gaussian integer weights: rounding isolates nodes again. *)
Lemma gaussian_int_isolated : exists G fuel n mean sigma p sym seed entropy A, source_contract G /\ normal_nonzero G mean sigma /\
  random_weighted_matrix_generator_gaussian_custom_density G fuel n mean sigma p sym seed true entropy = Returned A /\ ~ no_isolated n A.
Proof.
  destruct (W_gaussian true) as (A & E & H01 & H10 & H00 & H11). exists W, 0%nat, 2%nat, 0, 1, 1, false, (Some 42%Z), 0%nat, A.
  split; [exact W_contract|split; [exact W_normal_nonzero|split; [exact E|]]]. intros H. destruct (H 0%nat ltac:(lia)) as (j & Hj & [X|X]); apply X; destruct j as [|[|j]]; assumption || lia.
Qed.
(** The sparse generators: the same seed, other weights. *)
Lemma sparse_not_seeded : exists G topology seed s1 s2 a b, source_contract G /\ simple_links 2 (topology seed) /\
  fst (weighted_sparse G (m_normal G 5 1) topology false seed false s1) a b <> fst (weighted_sparse G (m_normal G 5 1) topology false seed false s2) a b.
Proof.
  exists {| mstate := nat; m_seed := Z.to_nat; m_random := fun s => (/ 4, s); m_randint := fun n s => (Nat.modulo s n, S s); m_normal := fun m q s => (if Nat.eqb s 0 then m else m + q, S s) |}.
  exists (fun _ => [(0%nat, 1%nat)]), (Some 42%Z), 0%nat, 1%nat, 0%nat, 1%nat. split; [|split].
  - split; [intros s; simpl; lra|]. intros n s H. simpl. apply Nat.mod_upper_bound. lia.
  - split; [constructor; [intros []|constructor]|]. intros e [<-|[]]. simpl. lia.
  - cbn. lra.
Qed.
(** Uniform integer weights on a networkx graph: a link disappears, and its node with it. *)
Lemma uniform_nx_lost : exists G topology seed A s, source_contract G /\ simple_links 3 (topology (Some seed)) /\
  weighted_nx G (int_draw G 10) topology seed = Some (A, s) /\ linked true (topology (Some seed)) 0 1 /\ ~ touched 3 A 0.
Proof.
  exists W, (fun _ => [(0%nat, 1%nat); (1%nat, 2%nat)]), 0%Z. eexists. eexists. split; [exact W_contract|split; [|split; [reflexivity|split; [left; left; reflexivity|]]]].
  - split; [repeat constructor; simpl; intuition congruence|]. intros e [<-|[<-|[]]]; simpl; lia.
  - intros (j & Hj & [X|X]); apply X; destruct j as [|[|[|j]]]; try lia; reflexivity.
Qed.
(** The hypotheses of the results on weighted networks are met. *)
Lemma nx_example : (forall t, fst (m_random W t) <> 0) /\ normal_nonzero W 10 (10 / (11 / 2)) /\ exists A s, weighted_nx W (m_normal W 10 (10 / (11 / 2))) (fun _ => [(0%nat, 1%nat)]) 42 = Some (A, s) /\ A 0%nat 1%nat <> 0.
Proof.
  split; [intros t; simpl; lra|split; [intros s; simpl; lra|]]. eexists. eexists. split; [reflexivity|]. cbn. lra.
Qed.
(** A loop that runs and stops: three nodes, none linked. *)
Lemma loop_example : zero_diagonal 3 zeros /\ symmetric 3 zeros /\ entries 3 (fun v => 0 <= v) zeros /\ ~ touched 3 zeros 1 /\ dir_proposes W (const_draw W 1) 3 1 1%nat /\ sym_proposes W (const_draw W 1) 3 1 1%nat.
Proof.
  repeat split.
  - intros i j _ _. apply Rle_refl.
  - intros (j & _ & [H|H]); apply H; reflexivity.
  - exact (W_const false 3 ltac:(lia) 1%nat 1%nat ltac:(lia)).
  - exact (W_const true 3 ltac:(lia) 1%nat 1%nat ltac:(lia)).
Qed.
