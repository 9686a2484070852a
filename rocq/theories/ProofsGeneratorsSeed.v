(** The generators: seeds and weights on networkx graphs. *)
From Coq Require Import Reals List Arith Bool ZArith Lia Lra.
From Verif Require Import Base ModelGenerators SpecGenerators ProofsGenerators ProofsMainGenerators ProofsGeneratorsTerm.
Import ListNotations.
Local Open Scope R_scope.

(** * C69: a seed determines the matrix *)
Lemma dense_seeded (G : source) fuel n p mean sigma sup_ext sym k iw e1 e2 :
  random_binary_matrix_generator_dense G fuel n sym (Some k) e1 = random_binary_matrix_generator_dense G fuel n sym (Some k) e2 /\
  random_binary_matrix_generator_custom_density G fuel n p sym (Some k) e1 = random_binary_matrix_generator_custom_density G fuel n p sym (Some k) e2 /\
  random_weighted_matrix_generator_dense G fuel n sup_ext sym (Some k) iw e1 = random_weighted_matrix_generator_dense G fuel n sup_ext sym (Some k) iw e2 /\
  random_weighted_matrix_generator_uniform_custom_density G fuel n p sup_ext sym (Some k) iw e1 = random_weighted_matrix_generator_uniform_custom_density G fuel n p sup_ext sym (Some k) iw e2 /\
  random_weighted_matrix_generator_gaussian_custom_density G fuel n mean sigma p sym (Some k) iw e1 = random_weighted_matrix_generator_gaussian_custom_density G fuel n mean sigma p sym (Some k) iw e2.
Proof. repeat split; reflexivity. Qed.

(** * The weights put on the links *)
Section Put.
Variable G : source.
Variable draw : mstate G -> R * mstate G.
Variable iw : bool.
Local Notation w s := (if iw then ceil (fst (draw s)) else fst (draw s)).
Local Notation put sym := (fun acc e =>
    let (v, s) := draw (snd acc) in
    let A := upd2 (fst acc) (fst e) (snd e) (if iw then ceil v else v) in
    ((if (sym : bool) then upd2 A (snd e) (fst e) (A (fst e) (snd e)) else A), s)).
Lemma put_step sym acc e a b : fst (put sym acc e) a b =
  if (Nat.eqb a (fst e) && Nat.eqb b (snd e)) || (sym && (Nat.eqb a (snd e) && Nat.eqb b (fst e))) then w (snd acc) else fst acc a b.
Proof.
  cbv beta. destruct (draw (snd acc)) as [v s]. destruct sym; cbv zeta; cbn [fst andb].
  - rewrite (upd2_twice (fst acc) (fst e) (snd e) (if iw then ceil v else v) _ eq_refl). reflexivity.
  - rewrite orb_false_r. reflexivity.
Qed.
Lemma put_all sym (P : R -> Prop) : (forall s, P (w s)) -> forall links acc a b,
  (linked sym links a b -> P (fst (fold_left (put sym) links acc) a b)) /\ (~ linked sym links a b -> fst (fold_left (put sym) links acc) a b = fst acc a b).
Proof.
  intros HP. induction links as [|e links IH] using rev_ind; intros acc a b.
  - split; [intros [[]|[_ []]]|reflexivity].
  - rewrite fold_left_app. cbn [fold_left]. rewrite put_step. destruct (IH acc a b) as [H1 H2]. destruct (_ || _) eqn:E.
    + split; [intros _; apply HP|]. intros H. exfalso. apply H. apply orb_true_iff in E. destruct E as [E|E].
      * apply andb_true_iff in E. destruct E as [E1 E2]. apply Nat.eqb_eq in E1. apply Nat.eqb_eq in E2. left. apply in_or_app. right. left. destruct e; simpl in *; congruence.
      * apply andb_true_iff in E. destruct E as [E0 E]. apply andb_true_iff in E. destruct E as [E1 E2]. apply Nat.eqb_eq in E1. apply Nat.eqb_eq in E2. right. split; [exact E0|]. apply in_or_app. right. left. destruct e; simpl in *; congruence.
    + assert (K : linked sym (links ++ [e]) a b <-> linked sym links a b).
      { unfold linked. rewrite !in_app_iff. simpl. split; [|tauto]. intros [[H|[H|[]]]|[H0 [H|[H|[]]]]]; auto; exfalso; subst; simpl in E; rewrite !Nat.eqb_refl in E; simpl in E; [discriminate|rewrite orb_true_r in E; discriminate]. }
      rewrite K. split; assumption.
Qed.
Lemma put_symmetric sym links : sym = true -> forall acc a b, (forall a b, fst acc a b = fst acc b a) -> fst (fold_left (put sym) links acc) a b = fst (fold_left (put sym) links acc) b a.
Proof.
  intros HS. induction links as [|e links IH] using rev_ind; intros acc a b H; [apply H|]. rewrite fold_left_app. cbn [fold_left]. rewrite !put_step. specialize (IH acc a b H). cbn [fold_left] in IH. rewrite IH, HS. cbn [andb].
  destruct (Nat.eqb a (fst e)), (Nat.eqb b (snd e)), (Nat.eqb a (snd e)), (Nat.eqb b (fst e)); reflexivity.
Qed.
End Put.
Lemma pair_eq_dec (x y : nat * nat) : {x = y} + {x <> y}.
Proof. decide equality; apply Nat.eq_dec. Qed.
(** Non-zero weights: the network has exactly the links of the topology. *)
Lemma weights_support (G : source) draw iw sym links s a b : (forall t, (if iw : bool then ceil (fst (draw t)) else fst (draw t)) <> 0) ->
  fst (put_weights G draw iw sym links s) a b <> 0 <-> linked sym links a b.
Proof.
  intros HD. unfold put_weights. destruct (put_all G draw iw sym (fun v => v <> 0) HD links (zeros, s) a b) as [H1 H2]. split; [|exact H1].
  intros H. destruct (in_dec pair_eq_dec (a, b) links) as [I1|N1]; [left; exact I1|]. destruct sym eqn:ES.
  - destruct (in_dec pair_eq_dec (b, a) links) as [I2|N2]; [right; split; auto|]. exfalso. apply H, H2. intros [X|[_ X]]; auto.
  - exfalso. apply H, H2. intros [X|[X _]]; [auto|discriminate].
Qed.
Lemma weights_symmetric (G : source) draw iw links s a b : fst (put_weights G draw iw true links s) a b = fst (put_weights G draw iw true links s) b a.
Proof. apply (put_symmetric G draw iw true links eq_refl (zeros, s) a b). reflexivity. Qed.
Lemma weights_entries (G : source) draw (P : R -> Prop) (iw : bool) sym links s a b : P 0 -> (forall t, P (if iw then ceil (fst (draw t)) else fst (draw t))) ->
  P (fst (put_weights G draw iw sym links s) a b).
Proof.
  intros H0 HD. destruct (put_all G draw iw sym P HD links (zeros, s) a b) as [H1 H2]. unfold put_weights.
  assert (DEC : linked sym links a b \/ ~ linked sym links a b).
  { unfold linked. destruct (in_dec pair_eq_dec (a, b) links), (in_dec pair_eq_dec (b, a) links), sym; intuition discriminate. }
  destruct DEC as [D|D]; [apply H1, D|]. exact (eq_ind_r P H0 (H2 D)).
Qed.
Lemma put_weights_loops (G : source) draw iw sym links s i n : simple_links n links -> fst (put_weights G draw iw sym links s) i i = 0.
Proof.
  intros [_ HL]. destruct (put_all G draw iw sym (fun _ => True) (fun _ => I) links (zeros, s) i i) as [_ H2]. unfold put_weights. apply H2.
  intros [X|[_ X]]; destruct (HL _ X) as (_ & _ & N); simpl in N; congruence.
Qed.
(** The sparse weighted generators put uniform or gaussian weights on every link. *)
Lemma uniform_sparse_support (G : source) sup_ext topology sym seed iw s a b : source_contract G -> (forall t, fst (m_random G t) <> 0) -> 0 < sup_ext ->
  let A := fst (weighted_sparse G (scaled_draw G sup_ext) topology sym seed iw s) in
  (A a b <> 0 <-> linked sym (topology seed) a b) /\ uniform_entry sup_ext iw (A a b) /\ (sym = true -> A a b = A b a).
Proof.
  intros HG HN Hs. cbv zeta. unfold weighted_sparse.
  assert (HP : forall t, 0 < fst (scaled_draw G sup_ext t) <= sup_ext).
  { intros t. unfold scaled_draw. pose proof (proj1 HG t) as H. specialize (HN t). destruct (m_random G t) as [u t']. cbn [fst] in *. split; [apply Rmult_lt_0_compat; lra|nra]. }
  split; [|split].
  - apply weights_support. intros t. specialize (HP t). destruct iw; [pose proof (ceil_pos _ (proj1 HP))|]; lra.
  - apply weights_entries; intros; unfold uniform_entry; destruct iw.
    + split; [split; [lra|rewrite <- ceil_0; apply ceil_le; lra]|exists 0%Z; reflexivity].
    + split; lra.
    + split; [|apply ceil_integer]. specialize (HP t). split; [rewrite <- ceil_0|]; apply ceil_le; lra.
    + specialize (HP t). split; lra.
  - intros ->. apply weights_symmetric.
Qed.
Lemma gaussian_nx_support (G : source) mean sigma topology seed A s a b : normal_nonzero G mean sigma ->
  weighted_nx G (m_normal G mean sigma) topology seed = Some (A, s) -> (A a b <> 0 <-> linked true (topology (Some seed)) a b) /\ A a b = A b a.
Proof.
  intros HN. unfold weighted_nx. destruct (reseed _ _ _) as [t|]; [|discriminate]. intros E. injection E as E.
  assert (EA : A = fst (put_weights G (m_normal G mean sigma) false true (topology (Some seed)) t)) by (rewrite E; reflexivity).
  rewrite EA. split; [apply weights_support; intros; apply HN|apply weights_symmetric].
Qed.
(** [randint(0, 1)] is always zero: no link is left. *)
Lemma uniform_nx_no_link (G : source) topology seed A s a b : source_contract G -> weighted_nx G (int_draw G 1) topology seed = Some (A, s) -> A a b = 0.
Proof.
  intros HG. unfold weighted_nx. destruct (reseed _ _ _) as [t|]; [|discriminate]. intros E. injection E as E.
  assert (EA : A = fst (put_weights G (int_draw G 1) false true (topology (Some seed)) t)) by (rewrite E; reflexivity).
  rewrite EA. apply (weights_entries G (int_draw G 1) (fun v => v = 0)); [reflexivity|]. intros u. unfold int_draw. pose proof (proj2 HG 1%nat u ltac:(lia)) as H.
  destruct (m_randint G 1 u) as [r u']. cbn [fst] in *. replace r with 0%nat by lia. reflexivity.
Qed.
