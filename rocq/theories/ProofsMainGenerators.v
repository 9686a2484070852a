(** The generators: main results. *)
From Coq Require Import Reals List Arith Bool ZArith Lia Lra.
From Verif Require Import Base ModelGenerators SpecGenerators ProofsGenerators.
Import ListNotations.
Local Open Scope R_scope.

(** * Rounding *)
Lemma Int_part_unique v k : IZR k <= v < IZR k + 1 -> Int_part v = k.
Proof.
  intros [H1 H2]. destruct (base_Int_part v) as [H3 H4]. assert (A : (Int_part v < k + 1)%Z) by (apply lt_IZR; rewrite plus_IZR; lra).
  assert (B : (k < Int_part v + 1)%Z) by (apply lt_IZR; rewrite plus_IZR; lra). lia.
Qed.
Lemma ceil_bounds v : v <= ceil v < v + 1.
Proof. unfold ceil. rewrite opp_IZR. destruct (base_Int_part (- v)). lra. Qed.
Lemma ceil_0 : ceil 0 = 0.
Proof. unfold ceil. rewrite Ropp_0, (Int_part_unique 0 0) by lra. reflexivity. Qed.
Lemma ceil_pos v : 0 < v -> 1 <= ceil v.
Proof. intros H. destruct (ceil_bounds v) as [H1 _]. unfold ceil in *. apply (IZR_le 1). assert (0 < - Int_part (- v))%Z by (apply lt_IZR; lra). lia. Qed.
Lemma ceil_le a b : a <= b -> ceil a <= ceil b.
Proof.
  intros H. destruct (ceil_bounds a) as [_ H2]. destruct (ceil_bounds b) as [H3 _]. unfold ceil in *. apply IZR_le.
  assert (- Int_part (- a) < - Int_part (- b) + 1)%Z by (apply lt_IZR; rewrite plus_IZR; lra). lia.
Qed.
Lemma ceil_integer v : is_integer (ceil v).
Proof. eexists. reflexivity. Qed.

(** * The first matrices *)
Section First.
Variable G : source.
Variable draw : mstate G -> R * mstate G.
Variable P : R -> Prop.
Hypothesis HP0 : P 0.
Hypothesis HPd : forall s, P (fst (draw s)).

Lemma random_array_P n s a b : P (fst (random_array G draw n s) a b).
Proof.
  unfold random_array. assert (K : forall l acc, (forall a b, P (fst acc a b)) ->
    P (fst (fold_left (fun acc e => let (v, s) := draw (snd acc) in (upd2 (fst acc) (fst e) (snd e) v, s)) l acc) a b)).
  { induction l as [|e l IH]; intros acc H; [apply H|]. cbn [fold_left]. apply IH. pose proof (HPd (snd acc)) as HV. destruct (draw (snd acc)) as [v s1]. cbn [fst] in *.
    intros x y. unfold upd2. destruct (_ && _); auto. }
  apply K. intros x y. exact HP0.
Qed.
Lemma random_cells_P p n s a b : P (fst (random_cells G p draw n s) a b).
Proof.
  unfold random_cells. assert (K : forall l acc, (forall a b, P (fst acc a b)) ->
    P (fst (fold_left (fun acc e => let (u, s) := m_random G (snd acc) in
      if Rle_dec u p then let (v, s) := draw s in (upd2 (fst acc) (fst e) (snd e) v, s) else (fst acc, s)) l acc) a b)).
  { induction l as [|e l IH]; intros acc H; [apply H|]. cbn [fold_left]. apply IH. destruct (m_random G (snd acc)) as [u s1]. destruct (Rle_dec u p); [|exact H].
    pose proof (HPd s1) as HV. destruct (draw s1) as [v s2]. cbn [fst] in *. intros x y. unfold upd2. destruct (_ && _); auto. }
  apply K. intros x y. exact HP0.
Qed.
Lemma upper_cells_lt n e : In e (upper_cells n) -> (fst e < snd e)%nat.
Proof. unfold upper_cells. rewrite in_flat_map. intros (i & _ & H). apply in_map_iff in H. destruct H as (j & <- & H). apply in_seq in H. simpl. lia. Qed.
Lemma random_upper_P p n s : let A := fst (random_upper G p draw n s) in (forall a b, P (A a b)) /\ (forall a b, A a b = A b a) /\ (forall a, A a a = 0).
Proof.
  unfold random_upper. assert (HL := upper_cells_lt n). assert (K : forall l acc, (forall e, In e l -> (fst e < snd e)%nat) ->
    ((forall a b, P (fst acc a b)) /\ (forall a b, fst acc a b = fst acc b a) /\ (forall a, fst acc a a = 0)) ->
    let A := fst (fold_left (fun acc e => let (u, s) := m_random G (snd acc) in
      if Rle_dec u p then let (v, s) := draw s in let A := upd2 (fst acc) (fst e) (snd e) v in (upd2 A (snd e) (fst e) (A (fst e) (snd e)), s) else (fst acc, s)) l acc) in
    (forall a b, P (A a b)) /\ (forall a b, A a b = A b a) /\ (forall a, A a a = 0)).
  { induction l as [|e l IH]; intros acc HE H; [exact H|]. cbn [fold_left]. apply IH; [intros; apply HE; right; assumption|]. specialize (HE e (or_introl eq_refl)).
    destruct (m_random G (snd acc)) as [u s1]. destruct (Rle_dec u p); [|exact H]. pose proof (HPd s1) as HV. destruct (draw s1) as [v s2]. cbn [fst] in *.
    destruct H as (H1 & H2 & H3). set (B := upd2 (upd2 (fst acc) (fst e) (snd e) v) (snd e) (fst e) (upd2 (fst acc) (fst e) (snd e) v (fst e) (snd e))).
    assert (HB : forall a b, B a b = if (Nat.eqb a (fst e) && Nat.eqb b (snd e)) || (Nat.eqb a (snd e) && Nat.eqb b (fst e)) then v else fst acc a b)
      by (intros a b; apply (upd2_twice (fst acc) (fst e) (snd e) v _ eq_refl)).
    clearbody B. split; [|split].
    - intros a b. rewrite HB. destruct (_ || _); auto.
    - intros a b. rewrite !HB, (H2 a b). destruct (Nat.eqb a (fst e)), (Nat.eqb b (snd e)), (Nat.eqb a (snd e)), (Nat.eqb b (fst e)); reflexivity.
    - intros a. rewrite HB. destruct (Nat.eqb_spec a (fst e)), (Nat.eqb_spec a (snd e)); simpl; try apply H3. lia. }
  apply K; [exact HL|]. simpl. split; [intros; exact HP0|split; intros; reflexivity].
Qed.
End First.
Lemma fill_diagonal_P (P : R -> Prop) A : P 0 -> (forall a b, P (A a b)) -> forall n, inv_dir n P (fill_diagonal A).
Proof. intros H0 H n. split; [intros i _; unfold fill_diagonal; rewrite Nat.eqb_refl; reflexivity|]. intros i j _ _. unfold fill_diagonal. destruct (Nat.eqb i j); auto. Qed.
Lemma fill_diagonal_sym (P : R -> Prop) A : P 0 -> (forall a b, P (A a b)) -> (forall a b, A a b = A b a) -> forall n, inv_sym n P (fill_diagonal A).
Proof.
  intros H0 H HS n. destruct (fill_diagonal_P P A H0 H n) as [HZ HE]. split; [exact HZ|split; [|exact HE]].
  intros i j _ _. unfold fill_diagonal. rewrite (Nat.eqb_sym j i), (HS i j). reflexivity.
Qed.

(** * What the draws satisfy *)
Lemma int_draw_2 G : source_contract G -> forall s, is_binary (fst (int_draw G 2 s)).
Proof.
  intros HG s. unfold int_draw. pose proof (proj2 HG 2%nat s ltac:(lia)) as H. destruct (m_randint G 2 s) as [r t]. cbn [fst] in *.
  destruct r as [|[|r]]; [left; reflexivity|right; reflexivity|lia].
Qed.
Lemma scaled_draw_between G sup_ext : source_contract G -> 0 <= sup_ext -> forall s, between 0 sup_ext (fst (scaled_draw G sup_ext s)).
Proof. intros HG Hs s. unfold scaled_draw. pose proof (proj1 HG s) as H. destruct (m_random G s) as [u t]. cbn [fst] in *. unfold between. nra. Qed.
Lemma average_binary a b : is_binary a -> is_binary b -> is_binary (to_int ((a + b) / 2)).
Proof.
  unfold to_int. intros [-> | ->] [-> | ->].
  - left. rewrite (Int_part_unique _ 0) by lra. reflexivity.
  - left. rewrite (Int_part_unique _ 0) by lra. reflexivity.
  - left. rewrite (Int_part_unique _ 0) by lra. reflexivity.
  - right. rewrite (Int_part_unique _ 1) by lra. reflexivity.
Qed.
Lemma binary_nonneg v : is_binary v -> 0 <= v.
Proof. intros [-> | ->]; lra. Qed.
Lemma binary_0 : is_binary 0.
Proof. left. reflexivity. Qed.
Lemma binary_1 : is_binary 1.
Proof. right. reflexivity. Qed.
Lemma between_nonneg b v : between 0 b v -> 0 <= v.
Proof. intros [H _]. exact H. Qed.

(** * C55: the matrices are valid *)
Lemma output_valid (G : source) n sym (P : R -> Prop) (r : option ((nat -> nat -> R) * mstate G)) (A : nat -> nat -> R) :
  (forall B s, r = Some (B, s) -> valid_adjacency n sym P B) -> output G false r = Returned A -> valid_adjacency n sym P A.
Proof. intros H. unfold output. destruct r as [[B s]|]; [|discriminate]. intros E. injection E as <-. exact (H B s eq_refl). Qed.
Lemma ceil_valid n sym b A : valid_adjacency n sym (between 0 b) A -> valid_adjacency n sym (fun v => between 0 (ceil b) v /\ is_integer v) (fun i j => ceil (A i j)).
Proof.
  intros (HZ & HS & HE & HN). split; [|split; [|split]].
  - intros i Hi. rewrite HZ by assumption. apply ceil_0.
  - intros HT i j Hi Hj. rewrite (HS HT i j) by assumption. reflexivity.
  - intros i j Hi Hj. destruct (HE i j Hi Hj) as [H1 H2]. split; [split|apply ceil_integer].
    + rewrite <- ceil_0. apply ceil_le, H1.
    + apply ceil_le, H2.
  - intros i Hi. destruct (HN i Hi) as (j & Hj & H). exists j. split; [exact Hj|].
    assert (K : forall a c, (a < n)%nat -> (c < n)%nat -> A a c <> 0 -> ceil (A a c) <> 0).
    { intros a c Ha Hc Hn. destruct (HE a c Ha Hc) as [H1 _]. pose proof (ceil_pos (A a c)). lra. }
    destruct H as [H|H]; [left|right]; apply K; auto.
Qed.
Lemma output_uniform (G : source) n sym b iw (r : option ((nat -> nat -> R) * mstate G)) A :
  (forall B s, r = Some (B, s) -> valid_adjacency n sym (between 0 b) B) -> output G iw r = Returned A -> valid_adjacency n sym (uniform_entry b iw) A.
Proof.
  intros H. unfold output. destruct r as [[B s]|]; [|discriminate]. specialize (H B s eq_refl). intros E. injection E as <-. unfold uniform_entry. destruct iw; [apply ceil_valid, H|exact H].
Qed.

Lemma dir_valid (G : source) draw (P : R -> Prop) n fuel A s B t : source_contract G -> P 0 -> (forall s, P (fst (draw s))) ->
  (forall v, P v -> 0 <= v) \/ (forall s, fst (draw s) <> 0) -> inv_dir n P A ->
  repair_all G (isolated_dir n A) (fun ind => repair_dir G draw n ind fuel) n A s = Some (B, t) -> valid_adjacency n false P B.
Proof.
  intros HG H0 HD HM HI E. destruct (repair_all_ok G (inv_dir n P) (isolated_dir n A) (fun ind => repair_dir G draw n ind fuel) n) with (A := A) (s := s) (A' := B) (s' := t) as [[H1 H2] H3]; auto.
  - intros ind A1 s1 A2 s2 Hi HI1 E1. exact (repair_dir_ok G HG draw P H0 HD HM n ind fuel Hi A1 s1 A2 s2 HI1 E1).
  - intros ind _ E1. apply not_isolated_dir, E1.
  - split; [exact H1|split; [discriminate|split; [exact H2|exact H3]]].
Qed.
Lemma sym_valid (G : source) (P : R -> Prop) n repair A s B t :
  (forall ind A s A' s', (ind < n)%nat -> inv_sym n P A -> repair ind A s = Some (A', s') -> inv_sym n P A' /\ keeps n A A' /\ touched n A' ind) -> inv_sym n P A ->
  repair_all G (isolated_sym n A) repair n A s = Some (B, t) -> valid_adjacency n true P B.
Proof.
  intros HR HI E. destruct (repair_all_ok G (inv_sym n P) (isolated_sym n A) repair n HR A s B t HI) as [(H1 & H2 & H3) H4]; auto.
  - intros ind _ E1. apply not_isolated_sym, E1.
  - split; [exact H1|split; [intros _; exact H2|split; [exact H3|exact H4]]].
Qed.

Lemma valid_binary_dense (G : source) fuel n sym seed entropy A : source_contract G ->
  random_binary_matrix_generator_dense G fuel n sym seed entropy = Returned A -> valid_adjacency n sym is_binary A.
Proof.
  intros HG. unfold random_binary_matrix_generator_dense. destruct (reseed G seed entropy) as [s|]; [|discriminate]. destruct sym; cbn [negb].
  - pose proof (random_array_P G _ is_binary binary_0 (int_draw_2 G HG) n s) as HB. destruct (random_array G (int_draw G 2) n s) as [B t]. cbn [fst] in HB.
    apply output_valid. intros C t' E.
    refine (sym_valid G is_binary n _ _ _ _ _ _ _ E).
    + intros ind A1 s1 A2 s2 Hi HI1 E1. exact (repair_sym_dense_ok G is_binary n ind fuel HG binary_0 binary_1 binary_nonneg Hi A1 s1 A2 s2 HI1 E1).
    + apply fill_diagonal_sym; [apply binary_0|intros; apply average_binary; apply HB|]. intros a b. rewrite Rplus_comm. reflexivity.
  - pose proof (random_array_P G _ is_binary binary_0 (int_draw_2 G HG) n s) as HB. destruct (random_array G (int_draw G 2) n s) as [B t]. cbn [fst] in HB.
    apply output_valid. intros C t' E. refine (dir_valid G (const_draw G 1) is_binary n fuel _ _ _ _ HG binary_0 _ _ _ E).
    + intros; apply binary_1.
    + left. apply binary_nonneg.
    + apply fill_diagonal_P; [apply binary_0|exact HB].
Qed.
Lemma valid_binary_custom (G : source) fuel n p sym seed entropy A : source_contract G ->
  random_binary_matrix_generator_custom_density G fuel n p sym seed entropy = Returned A -> valid_adjacency n sym is_binary A.
Proof.
  intros HG. unfold random_binary_matrix_generator_custom_density. destruct (reseed G seed entropy) as [s|]; [|discriminate]. destruct sym; cbn [negb].
  - destruct (random_upper_P G (const_draw G 1) is_binary binary_0 (fun _ => binary_1) p n s) as (H1 & H2 & H3). destruct (random_upper G p (const_draw G 1) n s) as [B t]. cbn [fst] in *.
    apply output_valid. intros C t' E. refine (sym_valid G is_binary n _ _ _ _ _ _ _ E).
    + intros ind A1 s1 A2 s2 Hi HI1 E1. exact (repair_sym_ok G HG (const_draw G 1) is_binary (fun _ => binary_1) (or_introl binary_nonneg) true n ind fuel Hi A1 s1 A2 s2 HI1 E1).
    + apply fill_diagonal_sym; [apply binary_0|exact H1|exact H2].
  - pose proof (random_cells_P G (const_draw G 1) is_binary binary_0 (fun _ => binary_1) p n s) as HB. destruct (random_cells G p (const_draw G 1) n s) as [B t]. cbn [fst] in HB.
    apply output_valid. intros C t' E. refine (dir_valid G (const_draw G 1) is_binary n fuel _ _ _ _ HG binary_0 _ _ _ E).
    + intros; apply binary_1.
    + left. apply binary_nonneg.
    + apply fill_diagonal_P; [apply binary_0|exact HB].
Qed.
Lemma valid_weighted_dense (G : source) fuel n sup_ext sym seed iw entropy A : source_contract G -> 0 <= sup_ext ->
  random_weighted_matrix_generator_dense G fuel n sup_ext sym seed iw entropy = Returned A -> valid_adjacency n sym (uniform_entry sup_ext iw) A.
Proof.
  intros HG Hs. assert (H0 : between 0 sup_ext 0) by (unfold between; lra). pose proof (scaled_draw_between G sup_ext HG Hs) as HD.
  unfold random_weighted_matrix_generator_dense. destruct (reseed G seed entropy) as [s|]; [|discriminate]. destruct sym; cbn [negb].
  - pose proof (random_array_P G _ _ H0 HD n s) as HB. destruct (random_array G (scaled_draw G sup_ext) n s) as [B t]. cbn [fst] in HB.
    apply output_uniform. intros C t' E. refine (sym_valid G _ n _ _ _ _ _ _ _ E).
    + intros ind A1 s1 A2 s2 Hi HI1 E1. exact (repair_sym_ok G HG (scaled_draw G sup_ext) _ HD (or_introl (between_nonneg _)) false n ind fuel Hi A1 s1 A2 s2 HI1 E1).
    + apply fill_diagonal_sym; [exact H0| |intros; rewrite Rplus_comm; reflexivity]. intros a b. pose proof (HB a b). pose proof (HB b a). unfold between in *. lra.
  - pose proof (random_array_P G _ _ H0 HD n s) as HB. destruct (random_array G (scaled_draw G sup_ext) n s) as [B t]. cbn [fst] in HB.
    apply output_uniform. intros C t' E. refine (dir_valid G (scaled_draw G sup_ext) _ n fuel _ _ _ _ HG H0 HD (or_introl (between_nonneg _)) _ E).
    apply fill_diagonal_P; [exact H0|exact HB].
Qed.
Lemma valid_weighted_uniform (G : source) fuel n p sup_ext sym seed iw entropy A : source_contract G -> 0 <= sup_ext ->
  random_weighted_matrix_generator_uniform_custom_density G fuel n p sup_ext sym seed iw entropy = Returned A -> valid_adjacency n sym (uniform_entry sup_ext iw) A.
Proof.
  intros HG Hs. assert (H0 : between 0 sup_ext 0) by (unfold between; lra). pose proof (scaled_draw_between G sup_ext HG Hs) as HD.
  unfold random_weighted_matrix_generator_uniform_custom_density. destruct (reseed G seed entropy) as [s|]; [|discriminate]. destruct sym; cbn [negb].
  - destruct (random_upper_P G _ _ H0 HD p n s) as (H1 & H2 & H3). destruct (random_upper G p (scaled_draw G sup_ext) n s) as [B t]. cbn [fst] in *.
    apply output_uniform. intros C t' E. refine (sym_valid G _ n _ _ _ _ _ _ _ E).
    + intros ind A1 s1 A2 s2 Hi HI1 E1. exact (repair_sym_ok G HG (scaled_draw G sup_ext) _ HD (or_introl (between_nonneg _)) false n ind fuel Hi A1 s1 A2 s2 HI1 E1).
    + split; [intros i _; apply H3|split; [intros i j _ _; apply H2|intros i j _ _; apply H1]].
  - pose proof (random_cells_P G _ _ H0 HD p n s) as HB. destruct (random_cells G p (scaled_draw G sup_ext) n s) as [B t]. cbn [fst] in HB.
    apply output_uniform. intros C t' E. refine (dir_valid G (scaled_draw G sup_ext) _ n fuel _ _ _ _ HG H0 HD (or_introl (between_nonneg _)) _ E).
    apply fill_diagonal_P; [exact H0|exact HB].
Qed.
Lemma valid_weighted_gaussian (G : source) fuel n mean sigma p sym seed entropy A : source_contract G -> normal_nonzero G mean sigma ->
  random_weighted_matrix_generator_gaussian_custom_density G fuel n mean sigma p sym seed false entropy = Returned A -> valid_adjacency n sym (fun _ => True) A.
Proof.
  intros HG HN. unfold random_weighted_matrix_generator_gaussian_custom_density. destruct (reseed G seed entropy) as [s|]; [|discriminate].
  set (P := fun _ : R => True). assert (H0 : P 0) by exact I. assert (HD : forall s, P (fst (m_normal G mean sigma s))) by (intros; exact I). destruct sym; cbn [negb].
  - destruct (random_upper_P G _ P H0 HD p n s) as (H1 & H2 & H3). destruct (random_upper G p (m_normal G mean sigma) n s) as [B t]. cbn [fst] in *.
    apply output_valid. intros C t' E. refine (sym_valid G P n _ _ _ _ _ _ _ E).
    + intros ind A1 s1 A2 s2 Hi HI1 E1. exact (repair_sym_gauss_ok G HG (m_normal G mean sigma) P HD (or_intror HN) n ind fuel Hi A1 s1 A2 s2 HI1 E1).
    + apply fill_diagonal_sym; [exact H0|exact H1|exact H2].
  - pose proof (random_cells_P G _ P H0 HD p n s) as HB. destruct (random_cells G p (m_normal G mean sigma) n s) as [B t]. cbn [fst] in HB.
    apply output_valid. intros C t' E. refine (dir_valid G (m_normal G mean sigma) P n fuel _ _ _ _ HG H0 HD (or_intror HN) _ E).
    apply fill_diagonal_P; [exact H0|exact HB].
Qed.
