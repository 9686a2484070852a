(** Adjacency matrix of an edge list; degree classes. *)
From Coq Require Import Reals List Arith Bool Lia Lra Sorting.Permutation.
From Verif Require Import Base SpecGraph SpecDirected ModelNetwork SpecNetwork ProofsUnique ProofsNetwork.
Import ListNotations.

(** * C43 *)
Lemma labels_in v es : In v (nodup Nat.eq_dec (map fst es ++ map snd es)) <-> is_end v es.
Proof. rewrite nodup_In. apply in_ends. Qed.
Lemma range_gapless es : forallb (in_range (n_labels es)) es = true <-> exists n, gapless n es.
Proof.
  set (D := nodup Nat.eq_dec (map fst es ++ map snd es)).
  assert (ND : NoDup D) by apply NoDup_nodup.
  assert (EL : n_labels es = length D) by reflexivity. split.
  - intros HR. exists (length D). rewrite forallb_forall in HR.
    assert (HI : incl D (seq 0 (length D))).
    { intros v Hv. apply labels_in in Hv. destruct Hv as (e & He & E). specialize (HR e He). unfold in_range in HR.
      apply andb_prop in HR. rewrite !Nat.ltb_lt in HR. rewrite EL in HR. apply in_seq. destruct E as [<-|<-]; lia. }
    assert (HI' : incl (seq 0 (length D)) D).
    { apply NoDup_length_incl; [exact ND|rewrite seq_length; lia|exact HI]. }
    intros v. rewrite <- labels_in. fold D. split; intros Hv.
    + apply HI in Hv. apply in_seq in Hv. lia.
    + apply HI'. apply in_seq. lia.
  - intros (n & HG). rewrite forallb_forall. intros e He.
    assert (EN : n_labels es = n).
    { rewrite EL. rewrite <- (seq_length n 0). apply Permutation_length. apply NoDup_Permutation; [exact ND|apply seq_NoDup|].
      intros v. unfold D. rewrite labels_in, (HG v), in_seq. lia. }
    rewrite EN. unfold in_range. apply andb_true_intro. rewrite !Nat.ltb_lt. split; apply HG; exists e; auto.
Qed.
Lemma gapless_labels n es : gapless n es -> n_labels es = n.
Proof.
  intros HG. unfold n_labels. rewrite <- (seq_length n 0). apply Permutation_length. apply NoDup_Permutation; [apply NoDup_nodup|apply seq_NoDup|].
  intros v. rewrite labels_in, (HG v), in_seq. lia.
Qed.

Definition put (d : bool) (adj : matrix) (e : nat * nat * R) : matrix :=
  if d then mset adj (fst (fst e)) (snd (fst e)) (snd e)
  else mset (mset adj (fst (fst e)) (snd (fst e)) (snd e)) (snd (fst e)) (fst (fst e)) (snd e).
Lemma mset_spec a i j v i' j' : mset a i j v i' j' = if Nat.eqb i i' && Nat.eqb j j' then v else a i' j'.
Proof.
  unfold mset, upd. destruct (Nat.eqb_spec i' i) as [->|Hi].
  - rewrite Nat.eqb_refl. simpl. rewrite (Nat.eqb_sym j' j). reflexivity.
  - destruct (Nat.eqb_spec i i'); [congruence|reflexivity].
Qed.
Lemma put_spec d a e i j : put d a e i j = if covers d i j (fst e) then snd e else a i j.
Proof.
  unfold put, covers. destruct d; simpl.
  - rewrite mset_spec, orb_false_r. reflexivity.
  - rewrite !mset_spec. rewrite (andb_comm (Nat.eqb (snd (fst e)) i)).
    destruct (Nat.eqb (fst (fst e)) i && Nat.eqb (snd (fst e)) j) eqn:E1, (Nat.eqb (fst (fst e)) j && Nat.eqb (snd (fst e)) i) eqn:E2; reflexivity.
Qed.
Lemma put_all d es a i j :
  (forall l1 e l2, es = l1 ++ e :: l2 -> covers d i j (fst e) = true -> (forall f, In f l2 -> covers d i j (fst f) = false) ->
     fold_left (put d) es a i j = snd e) /\
  ((forall e, In e es -> covers d i j (fst e) = false) -> fold_left (put d) es a i j = a i j).
Proof.
  revert a. induction es as [|e es IH] using rev_ind; intros a.
  - split; [intros l1 e l2 E; destruct l1; discriminate|reflexivity].
  - rewrite fold_left_app. simpl. rewrite put_spec. split.
    + intros l1 f l2 E Hf Hl. destruct l2 as [|g l2 _] using rev_ind.
      * apply app_inj_tail in E. destruct E as [_ <-]. rewrite Hf. reflexivity.
      * rewrite app_comm_cons, app_assoc in E. apply app_inj_tail in E. destruct E as [E <-].
        rewrite (Hl e) by (apply in_or_app; right; left; reflexivity).
        apply (proj1 (IH a) l1 f l2 E Hf). intros h Hh. apply Hl. apply in_or_app. left. exact Hh.
    + intros Hn. rewrite (Hn e) by (apply in_or_app; right; left; reflexivity).
      apply (proj2 (IH a)). intros f Hf. apply Hn. apply in_or_app. left. exact Hf.
Qed.

Lemma fold_left_ext {A B} (f g : A -> B -> A) l a : (forall a b, f a b = g a b) -> fold_left f l a = fold_left g l a.
Proof. intros E. revert a. induction l as [|b l IH]; intros a; [reflexivity|]. simpl. rewrite E. apply IH. Qed.
Lemma build_weighted_eq es d : build_adjacency_fast_weighted es d =
  if forallb (in_range (n_labels (map fst es))) (map fst es) then Adj (n_labels (map fst es)) (fold_left (put d) es (fun _ _ => 0%R)) else OutOfBounds.
Proof.
  unfold build_adjacency_fast_weighted. destruct (forallb _ _); reflexivity.
Qed.
Definition ones (es : list (nat * nat)) : list (nat * nat * R) := map (fun e => (e, 1%R)) es.
Lemma ones_fst es : map fst (ones es) = es.
Proof. unfold ones. rewrite map_map. simpl. apply map_id. Qed.
Lemma build_fast_eq es d : build_adjacency_fast es d = build_adjacency_fast_weighted (ones es) d.
Proof.
  rewrite build_weighted_eq, ones_fst. unfold build_adjacency_fast. destruct (forallb _ _); [|reflexivity]. f_equal.
  generalize (fun (_ _ : nat) => 0%R). induction es as [|e es IH]; intros a; [reflexivity|]. simpl. rewrite IH. unfold put. destruct d; reflexivity.
Qed.

Lemma adjacency_weighted es d :
  match build_adjacency_fast_weighted es d with
  | Adj n a => gapless n (map fst es) /\
      (forall i j l1 e l2, es = l1 ++ e :: l2 -> covers d i j (fst e) = true ->
         (forall f, In f l2 -> covers d i j (fst f) = false) -> a i j = snd e) /\
      (forall i j, (forall e, In e es -> covers d i j (fst e) = false) -> a i j = 0%R) /\
      (d = false -> forall i j, a i j = a j i)
  | OutOfBounds => forall n, ~ gapless n (map fst es)
  | AdjRaised => False
  end.
Proof.
  rewrite build_weighted_eq. destruct (forallb (in_range (n_labels (map fst es))) (map fst es)) eqn:E.
  - destruct (proj1 (range_gapless _) E) as (n & HG). rewrite (gapless_labels _ _ HG). split; [exact HG|].
    split; [intros i j; apply (proj1 (put_all d es _ i j))|]. split; [intros i j Hn; apply (proj2 (put_all d es (fun _ _ => 0%R) i j) Hn)|].
    intros -> i j. clear.
    assert (G : forall a : matrix, a i j = a j i -> fold_left (put false) es a i j = fold_left (put false) es a j i).
    { induction es as [|e es IH]; intros a E; [exact E|]. apply (IH (put false a e)). rewrite !put_spec, E.
      unfold covers. simpl. rewrite (orb_comm (Nat.eqb (fst (fst e)) i && _)). reflexivity. }
    apply G. reflexivity.
  - intros n HG. rewrite (proj2 (range_gapless _) (ex_intro _ n HG)) in E. discriminate.
Qed.

Lemma existsb_last {A} (P : A -> bool) l : existsb P l = true -> exists l1 e l2, l = l1 ++ e :: l2 /\ P e = true /\ forall f, In f l2 -> P f = false.
Proof.
  induction l as [|a l IH]; [discriminate|]. simpl. intros E. destruct (existsb P l) eqn:EL.
  - destruct (IH eq_refl) as (l1 & e & l2 & -> & He & Hl). exists (a :: l1), e, l2. auto.
  - rewrite orb_false_r in E. exists [], a, l. split; [reflexivity|]. split; [exact E|]. intros f Hf.
    destruct (P f) eqn:EF; [|reflexivity]. exfalso. assert (existsb P l = true) by (apply existsb_exists; exists f; auto). congruence.
Qed.
Lemma adjacency_binary es d :
  match build_adjacency_fast es d with
  | Adj n a => gapless n es /\ (forall i j, a i j = if existsb (covers d i j) es then 1%R else 0%R) /\
      (d = false -> forall i j, a i j = a j i)
  | OutOfBounds => forall n, ~ gapless n es
  | AdjRaised => False
  end.
Proof.
  rewrite build_fast_eq. pose proof (adjacency_weighted (ones es) d) as HA. rewrite ones_fst in HA.
  destruct (build_adjacency_fast_weighted (ones es) d) as [n a| |]; [|exact HA|exact HA].
  destruct HA as (HG & H1 & H0 & HS). split; [exact HG|]. split; [|exact HS]. intros i j.
  destruct (existsb (covers d i j) es) eqn:E.
  - destruct (existsb_last _ _ E) as (l1 & e & l2 & -> & He & Hl).
    rewrite (H1 i j (ones l1) (e, 1%R) (ones l2)); [reflexivity|unfold ones; rewrite map_app; reflexivity|exact He|].
    intros f Hf. apply Hl. rewrite <- (ones_fst l2). apply in_map. exact Hf.
  - apply H0. intros f Hf. destruct (covers d i j (fst f)) eqn:EF; [|reflexivity]. exfalso.
    assert (existsb (covers d i j) es = true); [|congruence]. apply existsb_exists. exists (fst f). split; [|exact EF].
    rewrite <- (ones_fst es). apply in_map. exact Hf.
Qed.
Lemma adjacency_gapless es d n : gapless n es -> exists a, build_adjacency_fast es d = Adj n a.
Proof.
  intros HG. pose proof (adjacency_binary es d) as HA. destruct (build_adjacency_fast es d) as [m a| |].
  - destruct HA as [HG' _]. exists a. f_equal. rewrite <- (gapless_labels _ _ HG), <- (gapless_labels _ _ HG'). reflexivity.
  - exfalso. apply (HA n HG).
  - destruct HA.
Qed.
Lemma adjacency_gap_refuted : exists es, es <> [] /\ build_adjacency_fast es false = OutOfBounds /\ build_adjacency_fast es true = OutOfBounds.
Proof. exists [(0, 2)]. split; [discriminate|]. split; reflexivity. Qed.

Lemma sparse_raises es wes d : build_adjacency_sparse es d = AdjRaised /\ build_adjacency_sparse_weighted wes d = AdjRaised /\
  forall b w, build_adjacency_from_edgelist b wes d true w = AdjRaised.
Proof. split; [reflexivity|]. split; [reflexivity|]. intros [] []; reflexivity. Qed.

(** Degrees of the matrix against incidences of the list. *)
Lemma positiveb_ind (b : bool) : positiveb (if b then 1%R else 0%R) = b.
Proof. unfold positiveb. destruct b, (Rlt_dec 0 _); auto; lra. Qed.

(** At most one edge of [es] covers a pair. *)
Lemma nsum_existsb n (es : list (nat * nat)) (C : nat -> nat * nat -> bool) :
  (forall j, j < n -> count (C j) es <= 1) ->
  nsum n (fun j => if existsb (C j) es then 1 else 0) = list_sum (map (fun e => nsum n (fun j => if C j e then 1 else 0)) es).
Proof.
  intros HC.
  rewrite (nsum_ext n _ (fun j => count (C j) es)).
  - clear HC. induction es as [|e es IH]; simpl.
    + rewrite (nsum_ext n _ (fun _ => 0)) by reflexivity. apply nsum_zero.
    + rewrite <- IH, <- nsum_plus. apply nsum_ext. intros j _. apply count_cons'.
  - intros j Hj. specialize (HC j Hj). destruct (existsb (C j) es) eqn:E.
    + apply existsb_exists in E. destruct E as (e & He & Ce). assert (0 < count (C j) es); [|lia].
      unfold count. assert (Hin : In e (filter (C j) es)) by (apply filter_In; auto). destruct (filter (C j) es); [destruct Hin|simpl; lia].
    + symmetry. apply count_none. intros e He. destruct (C j e) eqn:Ec; [|reflexivity].
      assert (existsb (C j) es = true); [|congruence]. apply existsb_exists. exists e. auto.
Qed.
Lemma count_le_1 {A} (P : A -> bool) l : NoDup l -> (forall a b, In a l -> In b l -> P a = true -> P b = true -> a = b) -> count P l <= 1.
Proof.
  intros HN HP. unfold count. destruct (filter P l) as [|a [|b t]] eqn:E; simpl; try lia. exfalso.
  assert (Ha : In a (filter P l)) by (rewrite E; left; reflexivity). assert (Hb : In b (filter P l)) by (rewrite E; right; left; reflexivity).
  apply filter_In in Ha. apply filter_In in Hb. assert (EQ : a = b) by (apply HP; tauto). subst.
  pose proof (NoDup_filter P HN) as NF. rewrite E in NF. inversion NF as [|? ? NI _]. apply NI. left. reflexivity.
Qed.
Lemma covers_true d i j e : covers d i j e = true <-> e = (i, j) \/ (d = false /\ e = (j, i)).
Proof.
  destruct e as [a b]. unfold covers. simpl. rewrite orb_true_iff, !andb_true_iff, negb_true_iff, !Nat.eqb_eq.
  split; (intros [E|[Hd E]]; [left|right; split; [exact Hd|]]); try (destruct E as [-> ->]; reflexivity); injection E as -> ->; auto.
Qed.
Lemma nsum_true n (P : nat -> bool) k : k < n -> (forall j, j < n -> P j = Nat.eqb k j) -> nsum n (fun j => if P j then 1 else 0) = 1.
Proof. intros Hk HP. rewrite (nsum_ext n _ (fun j => if Nat.eqb k j then 1 else 0)) by (intros j Hj; rewrite HP by exact Hj; reflexivity). apply nsum_single. exact Hk. Qed.
Lemma nsum_false n (P : nat -> bool) : (forall j, j < n -> P j = false) -> nsum n (fun j => if P j then 1 else 0) = 0.
Proof. intros HP. rewrite (nsum_ext n _ (fun _ => 0)) by (intros j Hj; rewrite HP by exact Hj; reflexivity). apply nsum_zero. Qed.

Lemma adjacency_degrees_und es n a deg : simple_edges false es -> build_adjacency_fast es false = Adj n a ->
  degree Ndarray n a = Some deg -> forall i, i < n -> deg i = incidences Nat.eqb i es.
Proof.
  intros (HL & HN & HO) HB HD i Hi. pose proof (adjacency_binary es false) as HA. rewrite HB in HA. destruct HA as (HG & HE & _).
  unfold degree in HD. simpl in HD. injection HD as <-. rewrite count_positive_nsum.
  rewrite (nsum_ext n _ (fun j => if existsb (covers false i j) es then 1 else 0)) by (intros; rewrite HE, positiveb_ind; reflexivity).
  rewrite (nsum_existsb n es (fun j => covers false i j)).
  - unfold incidences. specialize (HO eq_refl).
    assert (HB' : forall e, In e es -> fst e < n /\ snd e < n) by (intros e He; split; apply HG; exists e; auto).
    clear - HL HB' Hi. induction es as [|[u v] es IH]; [reflexivity|]. simpl map. simpl list_sum. simpl fold_right.
    change (list_sum (?x :: ?l)) with (x + list_sum l). simpl.
    rewrite IH; [|intros k Hk; apply (HL k); right; exact Hk|intros e He; apply HB'; right; exact He]. f_equal.
    destruct (HB' (u, v) ltac:(left; reflexivity)) as [Hu Hv]. simpl in Hu, Hv. unfold ends_at, covers. simpl.
    assert (NE : u <> v) by (intros ->; apply (HL v); left; reflexivity).
    destruct (Nat.eqb_spec u i) as [->|Hui]; simpl.
    + destruct (Nat.eqb_spec v i) as [->|Hvi]; [congruence|]. apply (nsum_true n _ v Hv). intros j Hj. rewrite andb_false_r, orb_false_r. reflexivity.
    + destruct (Nat.eqb_spec v i) as [->|Hvi].
      * apply (nsum_true n _ u Hu). intros j Hj. rewrite andb_true_r. reflexivity.
      * apply nsum_false. intros j Hj. apply andb_false_r.
  - intros j Hj. apply count_le_1; [exact HN|]. intros e f He Hf Ce Cf. apply covers_true in Ce. apply covers_true in Cf.
    destruct Ce as [->|[_ ->]], Cf as [->|[_ ->]]; try reflexivity; exfalso; [apply (HO eq_refl i j He Hf)|apply (HO eq_refl j i He Hf)].
Qed.
Lemma adjacency_degrees_dir es n a ko ki : simple_edges true es -> build_adjacency_fast es true = Adj n a ->
  out_degree Ndarray n a = Some ko -> in_degree Ndarray n a = Some ki ->
  forall i, i < n -> ko i = count (fun e => Nat.eqb (fst e) i) es /\ ki i = count (fun e => Nat.eqb (snd e) i) es.
Proof.
  intros (HL & HN & _) HB HO HI i Hi. pose proof (adjacency_binary es true) as HA. rewrite HB in HA. destruct HA as (HG & HE & _).
  unfold out_degree in HO. unfold in_degree in HI. simpl in HO, HI. injection HO as <-. injection HI as <-. rewrite !count_positive_nsum.
  assert (HB' : forall e, In e es -> fst e < n /\ snd e < n) by (intros e He; split; apply HG; exists e; auto).
  assert (HC : forall j k, count (covers true j k) es <= 1).
  { intros j k. apply count_le_1; [exact HN|]. intros e f He Hf Ce Cf. apply covers_true in Ce. apply covers_true in Cf.
    destruct Ce as [->|[Hx _]]; [|discriminate]. destruct Cf as [->|[Hx _]]; [reflexivity|discriminate]. }
  split.
  - rewrite (nsum_ext n _ (fun j => if existsb (covers true i j) es then 1 else 0)) by (intros; rewrite HE, positiveb_ind; reflexivity).
    rewrite (nsum_existsb n es (fun j => covers true i j)) by (intros; apply HC).
    clear - HB'. induction es as [|[u v] es IH]; [reflexivity|]. rewrite count_cons', <- IH by (intros; apply HB'; right; assumption).
    change (list_sum (map ?f (?x :: ?l))) with (f x + list_sum (map f l)). f_equal.
    destruct (HB' (u, v) ltac:(left; reflexivity)) as [Hu Hv]. simpl in *. unfold covers. simpl.
    destruct (Nat.eqb u i); simpl; [apply (nsum_true n _ v Hv); intros; apply orb_false_r|apply nsum_zero].
  - rewrite (nsum_ext n _ (fun j => if existsb (covers true j i) es then 1 else 0)) by (intros; rewrite HE, positiveb_ind; reflexivity).
    rewrite (nsum_existsb n es (fun j => covers true j i)) by (intros; apply HC).
    clear - HB'. induction es as [|[u v] es IH]; [reflexivity|]. rewrite count_cons', <- IH by (intros; apply HB'; right; assumption).
    change (list_sum (map ?f (?x :: ?l))) with (f x + list_sum (map f l)). f_equal.
    destruct (HB' (u, v) ltac:(left; reflexivity)) as [Hu Hv]. simpl in *. unfold covers. simpl.
    destruct (Nat.eqb v i); simpl; [apply (nsum_true n _ u Hu); intros; rewrite andb_true_r; apply orb_false_r|apply nsum_false; intros; rewrite andb_false_r; reflexivity].
Qed.
(** Self-loops and repeated edges are counted differently. *)
Lemma adjacency_degrees_refuted : exists es1 es2 n1 n2 a1 a2 d1 d2,
  build_adjacency_fast es1 false = Adj n1 a1 /\ degree Ndarray n1 a1 = Some d1 /\ d1 0 <> incidences Nat.eqb 0 es1 /\
  NoDup es1 /\
  build_adjacency_fast es2 false = Adj n2 a2 /\ degree Ndarray n2 a2 = Some d2 /\ d2 0 <> incidences Nat.eqb 0 es2 /\
  (forall i, ~ In (i, i) es2).
Proof.
  exists [(0, 0); (0, 1)], [(0, 1); (1, 0)].
  pose proof (adjacency_binary [(0, 0); (0, 1)] false) as A1. pose proof (adjacency_binary [(0, 1); (1, 0)] false) as A2.
  destruct (build_adjacency_fast [(0, 0); (0, 1)] false) as [n1 a1| |] eqn:E1; [|discriminate E1|destruct A1].
  destruct (build_adjacency_fast [(0, 1); (1, 0)] false) as [n2 a2| |] eqn:E2; [|discriminate E2|destruct A2].
  assert (N1 : n1 = 2) by (injection E1; auto). assert (N2 : n2 = 2) by (injection E2; auto). clear E1 E2. subst.
  destruct A1 as (_ & H1 & _). destruct A2 as (_ & H2 & _).
  exists 2, 2, a1, a2. eexists _, _. split; [reflexivity|]. split; [reflexivity|]. split.
  - rewrite count_positive_nsum. simpl. rewrite !H1. simpl. rewrite !(positiveb_ind true). discriminate.
  - split; [repeat constructor; simpl; intuition congruence|]. split; [reflexivity|]. split; [reflexivity|]. split.
    + rewrite count_positive_nsum. simpl. rewrite !H2. simpl. rewrite (positiveb_ind true), (positiveb_ind false). discriminate.
    + intros i [E|[E|[]]]; congruence.
Qed.

(** * C44 *)
Section Classes.
Context {K : Type}.
Variables (leb eqb : K -> K -> bool).
Hypothesis H : total_order leb eqb.
Lemma inverse_nth (l : list K) i v : nth_error l i = Some v ->
  exists q, nth_error (np_inverse leb eqb l) i = Some q /\ q < length (np_unique leb eqb l) /\ nth_error (np_unique leb eqb l) q = Some v.
Proof.
  intros Hi. exists (position eqb v (np_unique leb eqb l)). unfold np_inverse. rewrite nth_error_map, Hi. split; [reflexivity|].
  assert (Hin : In v (np_unique leb eqb l)) by (apply (unique_in leb eqb H); eapply nth_error_In; exact Hi).
  split; [apply (position_lt leb eqb H); exact Hin|apply (position_nth leb eqb H); exact Hin].
Qed.
Lemma first_nth (l : list K) q v : nth_error (np_unique leb eqb l) q = Some v ->
  exists i, nth_error (np_first leb eqb l) q = Some i /\ nth_error l i = Some v /\ forall j, nth_error l j = Some v -> i <= j.
Proof.
  intros Hq. exists (position eqb v l). unfold np_first. rewrite nth_error_map, Hq. split; [reflexivity|].
  assert (Hin : In v l) by (apply (unique_in leb eqb H); eapply nth_error_In; exact Hq).
  split; [apply (position_nth leb eqb H); exact Hin|intros j; apply (position_first leb eqb H)].
Qed.
(** The class map read with [nth] on valid positions. *)
Definition class_map (l : list K) (i : nat) : nat := nth i (np_inverse leb eqb l) 0.
Definition class_size (l : list K) (q : nat) : R := INR (nth q (np_counts leb eqb l) 0).
Lemma class_map_nth l i v : nth_error l i = Some v -> nth_error (np_unique leb eqb l) (class_map l i) = Some v.
Proof.
  intros Hi. destruct (inverse_nth l i v Hi) as (q & Eq & _ & Hv). unfold class_map. rewrite (nth_error_nth _ _ 0 Eq). exact Hv.
Qed.
Lemma class_eqb l i q v w : nth_error l i = Some v -> nth_error (np_unique leb eqb l) q = Some w -> Nat.eqb (class_map l i) q = eqb v w.
Proof.
  intros Hi Hq. pose proof (class_map_nth l i v Hi) as Hc. destruct (eqb v w) eqn:E.
  - apply (eqb_true leb eqb H) in E. subst. apply Nat.eqb_eq. apply (proj1 (NoDup_nth_error _) (unique_nodup leb eqb H l)); [apply nth_error_Some; congruence|congruence].
  - apply (eqb_false leb eqb H) in E. apply Nat.eqb_neq. intros <-. congruence.
Qed.
Lemma count_rsum (l : list K) (P : nat -> bool) (Q : K -> bool) : (forall i v, nth_error l i = Some v -> P i = Q v) ->
  rsum (length l) (fun i => ind (P i)) = INR (count Q l).
Proof.
  induction l as [|v l IH] using rev_ind; intros E; [reflexivity|].
  rewrite app_length, Nat.add_comm. simpl. rewrite IH, count_app, plus_INR.
  - f_equal. rewrite (E (length l) v) by (rewrite nth_error_app2, Nat.sub_diag by lia; reflexivity). rewrite count_cons'. unfold count, ind. simpl. destruct (Q v); reflexivity.
  - intros i w Hi. apply E. rewrite nth_error_app1; [exact Hi|apply nth_error_Some; congruence].
Qed.
Lemma classes_unique l : classes (length l) (length (np_unique leb eqb l)) (class_map l) (class_size l).
Proof.
  split.
  - intros i Hi. destruct (nth_error l i) as [v|] eqn:E; [|apply nth_error_None in E; lia].
    apply nth_error_Some. rewrite (class_map_nth l i v E). discriminate.
  - intros q Hq. destruct (nth_error (np_unique leb eqb l) q) as [w|] eqn:E; [|apply nth_error_None in E; lia].
    unfold class_size. rewrite (nth_error_nth _ _ 0 (counts_nth leb eqb H l q w E)).
    symmetry. apply count_rsum. intros i v Hi. apply class_eqb; assumption.
Qed.
End Classes.

Lemma reduction_unique {K} (leb eqb : K -> K -> bool) dseq : total_order leb eqb ->
  reduction_ok leb dseq (np_unique leb eqb dseq) (np_first leb eqb dseq) (np_inverse leb eqb dseq) (np_counts leb eqb dseq).
Proof.
  intros H. unfold reduction_ok. split; [apply unique_increasing; exact H|]. split; [intros; apply (unique_in leb eqb H)|].
  split; [unfold np_inverse; apply map_length|]. split; [apply counts_length|]. split; [unfold np_first; apply map_length|].
  split; [intros i k Hi; destruct (inverse_nth leb eqb H dseq i k Hi) as (q & E & _ & E2); exists q; auto|].
  split; [intros q k Hq; apply (first_nth leb eqb H); exact Hq|]. split; [apply counts_total|].
  apply (classes_unique leb eqb H).
Qed.
Lemma reduction_undirected dseq : exists r first inv mult, degree_reduction_und dseq = (r, first, inv, mult) /\
  reduction_ok Nat.leb dseq r first inv mult.
Proof. eexists _, _, _, _. split; [reflexivity|]. apply reduction_unique, nat_order. Qed.

Lemma nonzero_spec v i : In i (np_nonzero v) <-> exists d, nth_error v i = Some d /\ d <> 0.
Proof.
  unfold np_nonzero. rewrite in_map_iff.
  assert (G : forall k (l : list nat) a d, In (a, d) (combine (seq k (length l)) l) <-> exists j, a = k + j /\ nth_error l j = Some d).
  { intros k l. revert k. induction l as [|w l IH]; intros k a d; simpl.
    - split; [intros []|intros (j & _ & Hj); destruct j; discriminate].
    - rewrite (IH (S k)). split.
      + intros [E|(j & -> & Hj)]; [injection E as <- <-; exists 0; split; [lia|reflexivity]|exists (S j); split; [lia|exact Hj]].
      + intros (j & -> & Hj). destruct j as [|j]; simpl in Hj; [left; f_equal; [lia|congruence]|right; exists j; split; [lia|exact Hj]]. }
  split.
  - intros ((a & d) & <- & Hf). apply filter_In in Hf. destruct Hf as [Hi Hd]. apply (G 0) in Hi. destruct Hi as (j & -> & Hj).
    exists d. split; [exact Hj|]. apply Nat.eqb_neq. apply negb_true_iff. exact Hd.
  - intros (d & Hd & Hn). exists (i, d). split; [reflexivity|]. apply filter_In. split; [apply G; exists i; auto|].
    apply negb_true_iff, Nat.eqb_neq. exact Hn.
Qed.
Lemma nonzero_nodup v : NoDup (np_nonzero v).
Proof.
  unfold np_nonzero.
  assert (G : forall k (l : list nat), NoDup (map fst (filter (fun iv => negb (Nat.eqb (snd iv) 0)) (combine (seq k (length l)) l))) /\
     forall a, In a (map fst (filter (fun iv => negb (Nat.eqb (snd iv) 0)) (combine (seq k (length l)) l))) -> k <= a).
  { intros k l. revert k. induction l as [|w l IH]; intros k; simpl; [split; [constructor|intros a []]|].
    destruct (IH (S k)) as [I1 I2]. destruct (negb (Nat.eqb w 0)); simpl.
    - split; [constructor; [intros Hi; apply I2 in Hi; lia|exact I1]|]. intros a [<-|Ha]; [lia|apply I2 in Ha; lia].
    - split; [exact I1|]. intros a Ha. apply I2 in Ha. lia. }
  apply (G 0 v).
Qed.
Lemma nonzero_is_nonzero_list v : nonzero_list (length v) (fun q => INR (nth q v 0)) (np_nonzero v).
Proof.
  split; [apply nonzero_nodup|]. intros i. rewrite nonzero_spec. split.
  - intros (d & Hd & Hn). split; [apply nth_error_Some; congruence|]. rewrite (nth_error_nth _ _ 0 Hd). apply not_0_INR. exact Hn.
  - intros [Hi Hn]. destruct (nth_error v i) as [d|] eqn:E; [|apply nth_error_None in E; lia]. exists d. split; [reflexivity|].
    rewrite (nth_error_nth _ _ 0 E) in Hn. intros ->. apply Hn. reflexivity.
Qed.
Lemma reduction_directed dseq_out dseq_in : length dseq_out = length dseq_in ->
  let R := degree_reduction_dir dseq_out dseq_in in let m := length (r_dseq R) in
  reduction_ok pair_leb (combine dseq_out dseq_in) (r_dseq R) (r_index_dseq R) (r_invert_dseq R) (r_multiplicity R) /\
  rnz_n_out R = m /\ rnz_n_in R = m /\ rnz_dim R = 2 * m /\
  (forall i ko ki, nth_error dseq_out i = Some ko -> nth_error dseq_in i = Some ki ->
     exists q, nth_error (r_invert_dseq R) i = Some q /\ nth_error (rnz_dseq_out R) q = Some ko /\ nth_error (rnz_dseq_in R) q = Some ki) /\
  nonzero_list m (fun q => INR (nth q (rnz_dseq_out R) 0)) (nz_index_out R) /\
  nonzero_list m (fun q => INR (nth q (rnz_dseq_in R) 0)) (nz_index_in R).
Proof.
  intros HL R m. split; [apply reduction_unique, pair_order|]. unfold m, R, degree_reduction_dir. simpl. rewrite !map_length.
  split; [reflexivity|]. split; [reflexivity|]. split; [lia|]. split.
  - intros i ko ki Ho Hi.
    assert (HC : nth_error (combine dseq_out dseq_in) i = Some (ko, ki)).
    { clear - Ho Hi. revert dseq_out dseq_in Ho Hi. induction i as [|i IH]; intros [|a u] [|b w] Ho Hi; try discriminate; simpl in *.
      - congruence.
      - apply IH; assumption. }
    destruct (inverse_nth pair_leb pair_eqb pair_order _ i _ HC) as (q & E & _ & E2). exists q. split; [exact E|].
    rewrite !nth_error_map, E2. auto.
  - pose proof (nonzero_is_nonzero_list (map fst (np_unique pair_leb pair_eqb (combine dseq_out dseq_in)))) as N1.
    pose proof (nonzero_is_nonzero_list (map snd (np_unique pair_leb pair_eqb (combine dseq_out dseq_in)))) as N2.
    rewrite map_length in N1, N2. split; assumption.
Qed.
