(** Weights on networkx graphs: seeds and the order of the weights. *)
From Coq Require Import Reals List Arith Bool ZArith Lia Lra String.
From Verif Require Import Base ModelGenerators SpecGenerators ProofsGenerators ProofsMainGenerators ProofsGeneratorsTerm ProofsGeneratorsSeed ModelGraphNx SpecGraphNx WitnessGenerators.
Import ListNotations.
Local Open Scope R_scope.

Section Order.
Variable G : source.
Variable draw : mstate G -> R * mstate G.
Variable iw : bool.
Local Notation put sym := (fun acc e =>
    let (v, s) := draw (snd acc) in
    let A := upd2 (fst acc) (fst e) (snd e) (if iw then ceil v else v) in
    ((if (sym : bool) then upd2 A (snd e) (fst e) (A (fst e) (snd e)) else A), s)).
Lemma put_next sym acc e : snd (put sym acc e) = snd (draw (snd acc)).
Proof. cbv beta. destruct (draw (snd acc)). reflexivity. Qed.
Lemma put_order sym links : NoDup links -> (sym = true -> forall i j, In (i, j) links -> ~ In (j, i) links \/ i = j) -> forall acc m i j, nth_error links m = Some (i, j) ->
  fst (fold_left (put sym) links acc) i j = (if iw then ceil (stream draw (snd acc) m) else stream draw (snd acc) m) /\
  (sym = true -> fst (fold_left (put sym) links acc) j i = (if iw then ceil (stream draw (snd acc) m) else stream draw (snd acc) m)).
Proof.
  intros ND. induction ND as [|e links NI ND IH]; intros HS acc m i j; [destruct m; discriminate|]. destruct m as [|m]; intros E; cbn [nth_error] in E; cbn [fold_left].
  - injection E as ->. set (acc' := put sym acc (i, j)).
    assert (NL : ~ linked sym links i j).
    { intros [H|[H0 H]]; [exact (NI H)|]. destruct (HS H0 i j (or_introl eq_refl)) as [X|X]; [apply X; right; exact H|subst j; exact (NI H)]. }
    assert (NL' : sym = true -> ~ linked sym links j i).
    { intros H0 [H|[_ H]]; [|exact (NI H)]. destruct (HS H0 i j (or_introl eq_refl)) as [X|X]; [apply X; right; exact H|subst j; exact (NI H)]. }
    split; [|intros H0]; rewrite (proj2 (put_all G draw iw sym (fun _ => True) (fun _ => I) links acc' _ _)) by auto; unfold acc'; rewrite put_step; cbn [fst snd stream]; rewrite !Nat.eqb_refl; cbn [andb orb]; [reflexivity|].
    rewrite H0, orb_true_r. reflexivity.
  - destruct (IH (fun H0 i j H => match HS H0 i j (or_intror H) with or_introl X => or_introl (fun Y => X (or_intror Y)) | or_intror X => or_intror X end) (put sym acc e) m i j E) as [H1 H2].
    rewrite put_next in H1, H2. split; [exact H1|exact H2].
Qed.
Lemma weights_order links s : undirected_links links ->
  weighted_by links (fun m => if iw then ceil (stream draw s m) else stream draw s m) (fst (put_weights G draw iw true links s)).
Proof.
  intros [ND HL]. split.
  - intros m i j E. destruct (put_order true links ND (fun _ i j H => or_introl (proj2 (HL i j H))) (zeros, s) m i j E) as [H1 H2]. split; [exact H1|exact (H2 eq_refl)].
  - intros i j N1 N2. unfold put_weights. apply (proj2 (put_all G draw iw true (fun _ => True) (fun _ => I) links (zeros, s) i j)). intros [H|[_ H]]; auto.
Qed.
Lemma weights_order_dir links s : NoDup links ->
  directed_by links (fun m => if iw then ceil (stream draw s m) else stream draw s m) (fst (put_weights G draw iw false links s)).
Proof.
  intros ND. split.
  - intros m i j E. apply (put_order false links ND ltac:(discriminate) (zeros, s) m i j E).
  - intros i j N1. unfold put_weights. apply (proj2 (put_all G draw iw false (fun _ => True) (fun _ => I) links (zeros, s) i j)). intros [H|[X _]]; [auto|discriminate].
Qed.
End Order.
Lemma stream_const (G : source) v s m : stream (const_draw G v) s m = v.
Proof. revert s. induction m as [|m IH]; intros s; cbn [stream]; [reflexivity|apply IH]. Qed.

(** A seed determines the matrix. *)
Lemma nx_seeded (G : source) power topology n sup_ext alpha k is_weighted s1 s2 :
  graph_nx G power topology n sup_ext alpha (Some k) is_weighted s1 = graph_nx G power topology n sup_ext alpha (Some k) is_weighted s2.
Proof. unfold graph_nx, choose_seed, reseed. reflexivity. Qed.
(** Without a seed, the call is the seeded call with the number drawn, and nothing else is taken from
    the state of the generator. *)
Lemma nx_unseeded (G : source) power topology n sup_ext alpha is_weighted s s' : (0 < n)%nat ->
  graph_nx G power topology n sup_ext alpha None is_weighted s = graph_nx G power topology n sup_ext alpha (Some (Z.of_nat (fst (m_randint G (n * n) s)))) is_weighted s'.
Proof.
  intros Hn. unfold graph_nx, choose_seed. destruct (Nat.eqb_spec (n * n) 0) as [E|_]; [nia|]. destruct (m_randint G (n * n) s) as [r t]. reflexivity.
Qed.
Lemma drawn_seed_valid (G : source) n s : source_contract G -> (0 < n)%nat -> (Z.of_nat n <= 65536)%Z -> valid_seed (Some (Z.of_nat (fst (m_randint G (n * n) s)))).
Proof.
  intros [_ HG] Hn HB. pose proof (HG (n * n)%nat s ltac:(nia)) as H. cbn [valid_seed]. apply Nat2Z.inj_lt in H. rewrite Nat2Z.inj_mul in H. nia.
Qed.
(** The matrix of a call that returns. *)
Definition nx_draw (G : source) (power : nat -> R -> mstate G -> R * mstate G) (sup_ext : nat) (alpha : R) (is_weighted : option string) : mstate G -> R * mstate G :=
  match is_weighted with
  | Some "uniform"%string => int_draw G sup_ext
  | Some "gaussian"%string => m_normal G (INR sup_ext) (INR sup_ext / (11 / 2))
  | Some "powerlaw"%string => power sup_ext alpha
  | _ => const_draw G 1
  end.
Lemma nx_form (G : source) power topology n sup_ext alpha k is_weighted s A t : graph_nx G power topology n sup_ext alpha (Some k) is_weighted s = Some (A, t) ->
  exists links, topology k = Some links /\ valid_seed (Some k) /\ A = fst (put_weights G (nx_draw G power sup_ext alpha is_weighted) false true links (m_seed G k)).
Proof.
  unfold graph_nx, choose_seed. destruct (topology k) as [links|]; [|discriminate]. unfold reseed.
  destruct ((0 <=? k)%Z && (k <? 4294967296)%Z) eqn:E; [|discriminate]. intros H. exists links. split; [reflexivity|]. apply andb_true_iff in E. destruct E as [E1 E2]. apply Z.leb_le in E1. apply Z.ltb_lt in E2.
  split; [cbn; lia|]. unfold nx_draw. repeat match type of H with context [match ?x with _ => _ end] => destruct x; try discriminate end;
  injection H as H; rewrite H; reflexivity.
Qed.
Lemma nx_weights (G : source) power topology n sup_ext alpha k s A t links : topology k = Some links -> undirected_links links ->
  (graph_nx G power topology n sup_ext alpha (Some k) (Some "uniform"%string) s = Some (A, t) -> weighted_by links (stream (int_draw G sup_ext) (m_seed G k)) A) /\
  (graph_nx G power topology n sup_ext alpha (Some k) (Some "gaussian"%string) s = Some (A, t) -> weighted_by links (stream (m_normal G (INR sup_ext) (INR sup_ext / (11 / 2))) (m_seed G k)) A) /\
  (graph_nx G power topology n sup_ext alpha (Some k) (Some "powerlaw"%string) s = Some (A, t) -> weighted_by links (stream (power sup_ext alpha) (m_seed G k)) A) /\
  (graph_nx G power topology n sup_ext alpha (Some k) None s = Some (A, t) -> weighted_by links (fun _ => 1) A).
Proof.
  intros ET HL.
  assert (K : forall iw, graph_nx G power topology n sup_ext alpha (Some k) iw s = Some (A, t) -> weighted_by links (stream (nx_draw G power sup_ext alpha iw) (m_seed G k)) A).
  { intros iw H. destruct (nx_form _ _ _ _ _ _ _ _ _ _ _ H) as (l & E1 & _ & ->). rewrite ET in E1. injection E1 as <-. apply (weights_order G (nx_draw G power sup_ext alpha iw) false links _ HL). }
  split; [exact (K (Some "uniform"%string))|split; [exact (K (Some "gaussian"%string))|split; [exact (K (Some "powerlaw"%string))|]]].
  intros H. destruct (K None H) as [K1 K2]. cbn [nx_draw] in K1. split; [|exact K2]. intros m i j E. destruct (K1 m i j E) as [-> ->]. rewrite stream_const. split; reflexivity.
Qed.
(** It returns whenever networkx does, the seed is one numpy accepts and the weights can be drawn. *)
Lemma nx_returns (G : source) power topology n sup_ext alpha k is_weighted s links : topology k = Some links -> valid_seed (Some k) -> (0 < sup_ext)%nat ->
  exists A t, graph_nx G power topology n sup_ext alpha (Some k) is_weighted s = Some (A, t).
Proof.
  intros ET HV HS. unfold graph_nx, choose_seed. rewrite ET. unfold reseed. cbn in HV.
  replace ((0 <=? k)%Z && (k <? 4294967296)%Z) with true by (symmetry; apply andb_true_iff; split; [apply Z.leb_le|apply Z.ltb_lt]; lia).
  destruct (Nat.eqb_spec sup_ext 0) as [E|_]; [lia|]. cbn [andb].
  assert (K : forall d l u, exists A (t : mstate G), Some (put_weights G d false true l u) = Some (A, t)) by (intros d l u; destruct (put_weights G d false true l u) as [A t]; exists A, t; reflexivity).
  repeat match goal with |- context [match ?x with _ => _ end] => destruct x end; apply K.
Qed.
(** The sparse generators draw the weights in the order of the links from the state of the moment. *)
Lemma sparse_weights (G : source) draw topology seed (iw : bool) s :
  (undirected_links (topology seed) -> weighted_by (topology seed) (fun m => if iw then ceil (stream draw s m) else stream draw s m) (fst (weighted_sparse G draw topology true seed iw s))) /\
  (NoDup (topology seed) -> directed_by (topology seed) (fun m => if iw then ceil (stream draw s m) else stream draw s m) (fst (weighted_sparse G draw topology false seed iw s))).
Proof. split; intros H; [apply weights_order, H|apply weights_order_dir, H]. Qed.

(** A generator that returns the largest number. *)
Definition Top : source := {| mstate := nat; m_seed := Z.to_nat; m_random := fun s => (/ 4, s); m_randint := fun n s => (pred n, S s); m_normal := fun m q s => (m - q / 2, S s) |}.
Lemma Top_contract : source_contract Top.
Proof. split; [intros s; simpl; lra|]. intros n s H. simpl. lia. Qed.
Lemma nx_large_refuted : exists G power (topology : Z -> option (list (nat * nat))) n sup_ext alpha s, source_contract G /\ (0 < n)%nat /\ (0 < sup_ext)%nat /\ (forall k, exists links, topology k = Some links) /\
  forall is_weighted, graph_nx G power topology n sup_ext alpha None is_weighted s = None.
Proof.
  exists Top, (fun _ _ => const_draw Top 1), (fun _ => Some []), (Z.to_nat 65537), 10%nat, 2, 0%nat.
  assert (EZ : Z.of_nat (Z.to_nat 65537) = 65537%Z) by (apply Z2Nat.id; lia). set (n := Z.to_nat 65537) in *. clearbody n.
  assert (Hn : (0 < n)%nat) by lia. split; [apply Top_contract|]. split; [exact Hn|]. split; [lia|]. split; [intros k; exists []; reflexivity|]. intros iw. rewrite (nx_unseeded Top _ _ n 10 2 iw 0%nat 0%nat Hn). cbn [Top m_randint fst].
  unfold graph_nx, choose_seed, reseed. replace (_ && _) with false; [reflexivity|]. symmetry. apply andb_false_iff. right. apply Z.ltb_ge.
  rewrite Nat2Z.inj_pred by nia. rewrite Nat2Z.inj_mul, EZ. lia.
Qed.
Lemma nx_case : undirected_links [(0%nat, 1%nat); (1%nat, 2%nat)] /\ valid_seed (Some 42%Z) /\ source_contract W /\
  exists A t, graph_nx W (fun _ _ => const_draw W 3) (fun _ => Some [(0%nat, 1%nat); (1%nat, 2%nat)]) 3 10 2 (Some 42%Z) (Some "uniform"%string) 0%nat = Some (A, t) /\ A 0%nat 1%nat = 2 /\ A 2%nat 1%nat = 3 /\ A 0%nat 2%nat = 0.
Proof.
  split; [split; [repeat constructor; simpl; intuition congruence|]; intros i j [E|[E|[]]]; injection E as <- <-; (split; [discriminate|]); simpl; intuition congruence|].
  split; [cbn; lia|]. split; [exact W_contract|]. eexists. eexists. split; [reflexivity|]. repeat split; vm_compute; ring.
Qed.
