(** The same network given in different forms. *)
From Coq Require Import Reals List Arith Bool Lia Lra.
From Verif Require Import Base ProofsList SpecGraph SpecNetwork ModelNetwork ProofsUnique ProofsNetwork ProofsAdjacency WitnessNetwork ModelLife SpecLife ProofsLife ProofsLifeDir.
Import ListNotations.
Local Open Scope R_scope.

(** * Matrices of simple weighted edge lists *)
Lemma covers_unique d (es : list (nat * nat)) : simple_edges d es -> forall l1 e l2, es = l1 ++ e :: l2 -> forall i j, covers d i j e = true ->
  (forall f, In f l1 -> covers d i j f = false) /\ (forall f, In f l2 -> covers d i j f = false).
Proof.
  intros (HL & HN & HO) l1 e l2 -> i j Hc.
  assert (HD : forall f, In f (l1 ++ l2) -> covers d i j f = false).
  { intros f Hf. destruct (covers d i j f) eqn:Hd; [|reflexivity]. exfalso.
    assert (He : In e (l1 ++ e :: l2)) by (apply in_elt).
    assert (Hf' : In f (l1 ++ e :: l2)) by (apply in_app_iff in Hf; apply in_app_iff; simpl; tauto).
    assert (NE : f <> e) by (intros ->; apply NoDup_remove_2 in HN; contradiction).
    destruct e as [p q], f as [r s]. unfold covers in Hc, Hd. simpl in Hc, Hd.
    apply orb_true_iff in Hc, Hd. rewrite !andb_true_iff, !Nat.eqb_eq, negb_true_iff in Hc, Hd.
    destruct Hc as [[-> ->]|[-> [-> ->]]], Hd as [[-> ->]|[Q [-> ->]]].
    - apply NE; reflexivity.
    - apply (HO Q i j He Hf').
    - apply (HO eq_refl i j Hf' He).
    - apply NE; reflexivity. }
  split; intros f Hf; apply HD, in_app_iff; auto.
Qed.

Lemma weight_of_none {A} (P : A -> bool) (w : A -> R) l : (forall f, In f l -> P f = false) -> weight_of P w l = 0.
Proof. induction l as [|a l IH]; intros H; [reflexivity|]. simpl. rewrite (H a (or_introl eq_refl)), IH; [lra|]. intros; apply H; right; assumption. Qed.
Lemma weight_of_app {A} (P : A -> bool) (w : A -> R) l1 l2 : weight_of P w (l1 ++ l2) = weight_of P w l1 + weight_of P w l2.
Proof. induction l1 as [|a l IH]; simpl; [lra|]. rewrite IH. lra. Qed.

Lemma weighted_entry d (es : list (nat * nat * R)) n a : simple_edges d (map fst es) -> build_adjacency_fast_weighted es d = Adj n a ->
  forall i j, a i j = weight_of (fun e => covers d i j (fst e)) snd es /\
    ((forall e, In e es -> 0 < snd e) -> positiveb (a i j) = existsb (covers d i j) (map fst es) /\ 0 <= a i j).
Proof.
  intros HS HA i j. pose proof (adjacency_weighted es d) as W. rewrite HA in W. destruct W as (_ & W1 & W0 & _).
  destruct (existsb (fun e => covers d i j (fst e)) es) eqn:Ex.
  - apply existsb_exists in Ex. destruct Ex as (e & He & Hc). apply in_split in He. destruct He as (l1 & l2 & ->).
    rewrite map_app in HS. simpl in HS. destruct (covers_unique d _ HS (map fst l1) (fst e) (map fst l2) eq_refl i j Hc) as [N1 N2].
    assert (N1' : forall f, In f l1 -> covers d i j (fst f) = false) by (intros f Hf; apply N1, in_map, Hf).
    assert (N2' : forall f, In f l2 -> covers d i j (fst f) = false) by (intros f Hf; apply N2, in_map, Hf).
    rewrite (W1 i j l1 e l2 eq_refl Hc N2'). split.
    + rewrite weight_of_app. simpl. rewrite Hc, (weight_of_none _ _ l1 N1'), (weight_of_none _ _ l2 N2'). lra.
    + intros Hp. specialize (Hp e (in_elt _ _ _)). split; [|lra]. rewrite (proj2 (existsb_exists _ _)).
      * unfold positiveb. destruct (Rlt_dec 0 (snd e)); [reflexivity|contradiction].
      * exists (fst e). split; [rewrite map_app; simpl; apply in_elt|exact Hc].
  - assert (N : forall e, In e es -> covers d i j (fst e) = false).
    { intros e He. destruct (covers d i j (fst e)) eqn:C; [|reflexivity]. exfalso.
      assert (Q : existsb (fun e => covers d i j (fst e)) es = true) by (apply existsb_exists; exists e; auto). congruence. }
    rewrite (W0 i j N). split; [symmetry; apply weight_of_none; exact N|]. intros _. split; [|lra].
    unfold positiveb. destruct (Rlt_dec 0 0); [lra|]. symmetry. destruct (existsb (covers d i j) (map fst es)) eqn:C; [|reflexivity].
    apply existsb_exists in C. destruct C as (e & He & Hc). apply in_map_iff in He. destruct He as (f & <- & Hf). rewrite (N f Hf) in Hc. discriminate.
Qed.
Lemma rsum_weight_of {A} n (P : nat -> A -> bool) (w : A -> R) l :
  rsum n (fun j => weight_of (P j) w l) = fold_right (fun e s => INR (nsum n (fun j => if P j e then 1%nat else 0%nat)) * w e + s) 0 l.
Proof.
  induction l as [|a l IH]; simpl; [apply rsum_zero; reflexivity|]. rewrite rsum_plus, IH. f_equal.
  clear IH. induction n as [|n IHn]; simpl; [lra|]. rewrite IHn, plus_INR. destruct (P n a); simpl; lra.
Qed.

(** Rows of the weighted matrix. *)
Lemma weighted_row_und (es : list (nat * nat * R)) n a : simple_edges false (map fst es) -> build_adjacency_fast_weighted es false = Adj n a ->
  forall i, (i < n)%nat -> rsum n (fun j => a i j) = incident_weight Nat.eqb i es.
Proof.
  intros HS HA i Hi. rewrite (rsum_ext n _ (fun j => weight_of (fun e => covers false i j (fst e)) snd es))
    by (intros j _; apply (weighted_entry false es n a HS HA i j)).
  rewrite (rsum_weight_of n (fun j e => covers false i j (fst e))). unfold incident_weight.
  pose proof (adjacency_weighted es false) as W. rewrite HA in W. destruct W as (HG & _). destruct HS as (HL & _ & _).
  assert (HB : forall e, In e (map fst es) -> (fst e < n)%nat /\ (snd e < n)%nat) by (intros e He; split; apply HG; exists e; auto).
  clear - HL HB Hi. induction es as [|[[u v] w] es IH]; [reflexivity|]. simpl.
  rewrite IH; [|intros k Hk; apply (HL k); right; exact Hk|intros e He; apply HB; right; exact He]. f_equal. f_equal.
  destruct (HB (u, v) ltac:(left; reflexivity)) as [Hu Hv]. simpl in Hu, Hv. unfold ends_at, covers. simpl.
  assert (NE : u <> v) by (intros ->; apply (HL v); left; reflexivity). f_equal.
  destruct (Nat.eqb_spec u i) as [->|Hui]; simpl.
  - destruct (Nat.eqb_spec v i) as [->|Hvi]; [congruence|]. apply (nsum_true n _ v Hv). intros j Hj. rewrite andb_false_r, orb_false_r. reflexivity.
  - destruct (Nat.eqb_spec v i) as [->|Hvi].
    + apply (nsum_true n _ u Hu). intros j Hj. rewrite andb_true_r. reflexivity.
    + apply nsum_false. intros j Hj. apply andb_false_r.
Qed.
Lemma weight_of_fold {A} (P : A -> bool) (w : A -> R) (f : A -> nat) l : (forall e, In e l -> f e = if P e then 1%nat else 0%nat) ->
  fold_right (fun e s => INR (f e) * w e + s) 0 l = weight_of P w l.
Proof.
  induction l as [|a l IH]; intros H; [reflexivity|]. simpl. rewrite IH by (intros; apply H; right; assumption).
  rewrite (H a (or_introl eq_refl)). destruct (P a); simpl; lra.
Qed.
Lemma weighted_row_dir (es : list (nat * nat * R)) n a : simple_edges true (map fst es) -> build_adjacency_fast_weighted es true = Adj n a ->
  forall i, (i < n)%nat -> rsum n (fun j => a i j) = weight_of (fun e => Nat.eqb (fst (fst e)) i) snd es /\
    rsum n (fun j => a j i) = weight_of (fun e => Nat.eqb (snd (fst e)) i) snd es.
Proof.
  intros HS HA i Hi.
  pose proof (adjacency_weighted es true) as W. rewrite HA in W. destruct W as (HG & _).
  assert (HB : forall e, In e es -> (fst (fst e) < n)%nat /\ (snd (fst e) < n)%nat).
  { intros e He; split; apply HG; exists (fst e); split; auto; apply in_map; assumption. }
  split.
  - rewrite (rsum_ext n _ (fun j => weight_of (fun e => covers true i j (fst e)) snd es))
      by (intros j _; apply (weighted_entry true es n a HS HA i j)).
    rewrite (rsum_weight_of n (fun j e => covers true i j (fst e))). apply weight_of_fold. intros [[u v] w] He.
    destruct (HB _ He) as [Hu Hv]. simpl in *. unfold covers. simpl.
    destruct (Nat.eqb u i); simpl; [apply (nsum_true n _ v Hv); intros; apply orb_false_r|apply nsum_zero].
  - rewrite (rsum_ext n _ (fun j => weight_of (fun e => covers true j i (fst e)) snd es))
      by (intros j _; apply (weighted_entry true es n a HS HA j i)).
    rewrite (rsum_weight_of n (fun j e => covers true j i (fst e))). apply weight_of_fold. intros [[u v] w] He.
    destruct (HB _ He) as [Hu Hv]. simpl in *. unfold covers. simpl.
    destruct (Nat.eqb v i); simpl; [apply (nsum_true n _ u Hu); intros; rewrite andb_true_r; apply orb_false_r|apply nsum_false; intros; rewrite andb_false_r; reflexivity].
Qed.

(** Counting through the relabelling. *)
Section Relabel.
  Context {K : Type}.
  Variables (leb eqb : K -> K -> bool) (nodes : list K) (i : nat) (v : K).
  Hypotheses (H : total_order leb eqb) (HI : increasing leb nodes) (Hv : nth_error nodes i = Some v).
  Lemma relabel_key a b : nth_error nodes a = Some b -> Nat.eqb a i = eqb b v.
  Proof.
    intros Hb. destruct (Nat.eqb_spec a i) as [->|NE].
    - symmetry. apply (proj1 H). congruence.
    - symmetry. apply (eqb_false leb eqb H). intros ->. destruct (Nat.lt_trichotomy a i) as [Q|[Q|Q]]; [|congruence|].
      + destruct (HI a i v v Q Hb Hv). congruence.
      + destruct (HI i a v v Q Hv Hb). congruence.
  Qed.
  Lemma relabel_counts es' es : map (relabel nodes) es' = map Some es ->
    count (fun e => Nat.eqb (fst e) i) es' = count (fun e => eqb (fst e) v) es /\
    count (fun e => Nat.eqb (snd e) i) es' = count (fun e => eqb (snd e) v) es.
  Proof.
    revert es. induction es' as [|[a b] es' IH]; intros [|[u w] es] HR; try discriminate; [split; reflexivity|].
    simpl in HR. injection HR as HE HR. destruct (IH es HR) as [I1 I2].
    unfold relabel in HE. simpl in HE. destruct (nth_error nodes a) as [p|] eqn:Ea; [|discriminate]. destruct (nth_error nodes b) as [q|] eqn:Eb; [|discriminate].
    injection HE as -> ->. rewrite !count_cons'. simpl. rewrite (relabel_key _ _ Ea), (relabel_key _ _ Eb), I1, I2. split; reflexivity.
  Qed.
  Lemma relabel_weights es' es : map (fun e : nat * nat * R => relabel nodes (fst e)) es' = map (fun e => Some (fst e)) es -> map snd es' = map snd es ->
    weight_of (fun e => Nat.eqb (fst (fst e)) i) snd es' = weight_of (fun e => eqb (fst (fst e)) v) snd es /\
    weight_of (fun e => Nat.eqb (snd (fst e)) i) snd es' = weight_of (fun e => eqb (snd (fst e)) v) snd es /\
    incident_weight Nat.eqb i es' = incident_weight eqb v es.
  Proof.
    revert es. induction es' as [|[[a b] c] es' IH]; intros [|[[u w] d] es] HR HW; try discriminate; [repeat split; reflexivity|].
    simpl in HR, HW. injection HR as HE HR. injection HW as -> HW. destruct (IH es HR HW) as (I1 & I2 & I3).
    unfold relabel in HE. simpl in HE. destruct (nth_error nodes a) as [p|] eqn:Ea; [|discriminate]. destruct (nth_error nodes b) as [q|] eqn:Eb; [|discriminate].
    injection HE as -> ->. simpl. unfold ends_at. simpl. rewrite (relabel_key _ _ Ea), (relabel_key _ _ Eb), I1, I2.
    repeat split; try reflexivity. f_equal. exact I3.
  Qed.
End Relabel.

Lemma list_as_map {A} (l : list A) n (f : nat -> A) : length l = n -> (forall i, (i < n)%nat -> nth_error l i = Some (f i)) -> l = map f (seq 0 n).
Proof.
  revert n f. induction l as [|a l IH]; intros [|n] f HL HN; try discriminate; [reflexivity|]. simpl.
  pose proof (HN 0%nat ltac:(lia)) as H0. simpl in H0. injection H0 as ->. f_equal. rewrite <- seq_shift, map_map.
  apply IH; [simpl in HL; lia|]. intros i Hi. exact (HN (S i) ltac:(lia)).
Qed.

Lemma degrees_as_rows n (a : matrix) (deg : list nat) (k : nat -> nat) : length deg = n ->
  (forall i, (i < n)%nat -> nth_error deg i = Some (k i)) -> (forall i, (i < n)%nat -> k i = count_positive n (fun j => a i j)) ->
  map INR deg = row_degrees n a.
Proof.
  intros HL HN HK. rewrite (list_as_map deg n k HL HN), map_map. apply map_ext_in. intros i Hi. apply in_seq in Hi.
  rewrite HK by lia. rewrite count_positive_nsum, nsum_count. reflexivity.
Qed.
Lemma degrees_as_cols n (a : matrix) (deg : list nat) (k : nat -> nat) : length deg = n ->
  (forall i, (i < n)%nat -> nth_error deg i = Some (k i)) -> (forall i, (i < n)%nat -> k i = count_positive n (fun j => a j i)) ->
  map INR deg = col_degrees n a.
Proof.
  intros HL HN HK. rewrite (list_as_map deg n k HL HN), map_map. apply map_ext_in. intros i Hi. apply in_seq in Hi.
  rewrite HK by lia. rewrite count_positive_nsum, nsum_count. reflexivity.
Qed.
Lemma binary_nonneg d es n a : build_adjacency_fast es d = Adj n a -> nonneg_matrix n a /\ excess n a = 0 /\ gapless n es.
Proof.
  intros HB. pose proof (adjacency_binary es d) as W. rewrite HB in W. destruct W as (HG & HE & _).
  split; [intros i j _ _; rewrite HE; destruct (existsb _ _); lra|]. split; [|exact HG].
  apply excess_binary. intros i j _ _. rewrite HE. destruct (existsb _ _); auto.
Qed.
Lemma gapless_pos {K} n (nodes : list K) es' es : map (relabel nodes) es' = map Some es -> es <> [] -> gapless n es' -> (0 < n)%nat.
Proof.
  intros HR HN HG. destruct es' as [|[u v] es']; [destruct es; [contradiction HN; reflexivity|discriminate]|].
  pose proof (proj1 (HG u)) as Q. assert (u < n)%nat; [|lia]. apply Q. exists (u, v). simpl. auto.
Qed.
Lemma count_positive_ext n f g : (forall j, (j < n)%nat -> positiveb (f j) = positiveb (g j)) -> count_positive n f = count_positive n g.
Proof. intros H. rewrite !count_positive_nsum. apply nsum_ext. intros j Hj. rewrite H by assumption. reflexivity. Qed.
Lemma weighted_gapless_adj es d n : gapless n (map fst es) -> exists a, build_adjacency_fast_weighted es d = Adj n a.
Proof.
  intros HG. destruct (adjacency_gapless (map fst es) d n HG) as (b & Hb). unfold build_adjacency_fast in Hb. unfold build_adjacency_fast_weighted.
  destruct (forallb (in_range (n_labels (map fst es))) (map fst es)); [|discriminate]. injection Hb as -> _. eexists; reflexivity.
Qed.

Lemma simple_map_relabel {K} d (nodes : list K) (es' : list (nat * nat * R)) (es : list (K * K * R)) :
  map (fun e => relabel nodes (fst e)) es' = map (fun e => Some (fst e)) es ->
  map (relabel nodes) (map fst es') = map Some (map fst es) /\ (simple_edges d (map fst es) -> simple_edges d (map fst es')).
Proof. intros H. assert (E : map (relabel nodes) (map fst es') = map Some (map fst es)) by (rewrite !map_map; exact H). split; [exact E|]. apply (relabel_simple d nodes). exact E. Qed.

Lemma in_snd {A} (es' : list (nat * nat * R)) (es : list (A * R)) : map snd es' = map snd es -> (forall e, In e es -> 0 < snd e) -> forall e, In e es' -> 0 < snd e.
Proof.
  intros HW HP e He. assert (Hin : In (snd e) (map snd es)) by (rewrite <- HW; apply in_map; exact He).
  apply in_map_iff in Hin. destruct Hin as (f & E & Hf). rewrite <- E. apply HP. exact Hf.
Qed.

(** * Matrices of every kind *)
Lemma u_matrix_forms (L : Type) (leb eqb : L -> L -> bool) k stored n a : k <> OtherKind -> (0 < stored)%nat -> (0 < n)%nat -> nonneg_matrix n a ->
  exists g g', u_construct leb eqb (ArrayAdj n a) NoEdges NoSeq NoSeq = inl g /\ u_construct leb eqb (SparseAdj k stored n a) NoEdges NoSeq NoSeq = inl g' /\
    u_n_nodes g' = u_n_nodes g /\ u_n_edges g' = u_n_edges g /\ u_dseq g' = u_dseq g /\ u_strength g' = u_strength g /\
    u_is_weighted g' = u_is_weighted g /\ u_adjacency g' = u_adjacency g /\ u_is_sparse g = false /\ u_is_sparse g' = true.
Proof.
  intros Hk Hs Hn Ha.
  destruct (u_from_matrix_ok (@u_blank L) Ndarray false n a ltac:(discriminate) Ha) as (g & E & I & N & D & M & A & _ & S & W & U).
  destruct (u_from_matrix_ok (@u_blank L) k true n a Hk Ha) as (g' & E' & I' & N' & D' & M' & A' & _ & S' & W' & U').
  unfold u_construct. cbn [u_initialize u_init_adjacency]. rewrite (proj2 (Nat.ltb_lt 0 (n * n)) ltac:(nia)), (proj2 (Nat.ltb_lt 0 stored) Hs), E, E'.
  eexists _, _. split; [reflexivity|]. split; [reflexivity|]. simpl. rewrite N, N', D, D', M, M', A, A', S, S'.
  destruct (sum_test n a) as [T|T].
  - destruct (U T) as [-> ->], (U' T) as [-> ->]. repeat split.
  - destruct (W T) as [-> ->], (W' T) as [-> ->]. repeat split.
Qed.
Lemma d_matrix_forms (L : Type) (leb eqb : L -> L -> bool) k stored n a : k <> OtherKind -> (0 < stored)%nat -> (0 < n)%nat -> nonneg_matrix n a ->
  exists g g', d_construct leb eqb (ArrayAdj n a) NoEdges NoSeq NoSeq = inl g /\ d_construct leb eqb (SparseAdj k stored n a) NoEdges NoSeq NoSeq = inl g' /\
    d_n_nodes g' = d_n_nodes g /\ d_n_edges g' = d_n_edges g /\ d_dseq_out g' = d_dseq_out g /\ d_dseq_in g' = d_dseq_in g /\
    d_out_strength g' = d_out_strength g /\ d_in_strength g' = d_in_strength g /\
    d_is_weighted g' = d_is_weighted g /\ d_adjacency g' = d_adjacency g.
Proof.
  intros Hk Hs Hn Ha.
  destruct (d_from_matrix_ok (@d_blank L) Ndarray false n a ltac:(discriminate) Ha) as (g & E & I & N & D & D2 & M & A & _ & W & U).
  destruct (d_from_matrix_ok (@d_blank L) k true n a Hk Ha) as (g' & E' & I' & N' & D' & D2' & M' & A' & _ & W' & U').
  unfold d_construct. cbn [d_initialize d_init_adjacency]. rewrite (proj2 (Nat.ltb_lt 0 (n * n)) ltac:(nia)), (proj2 (Nat.ltb_lt 0 stored) Hs), E, E'.
  eexists _, _. split; [reflexivity|]. split; [reflexivity|]. rewrite N, N', D, D', D2, D2', M, M', A, A'.
  destruct (sum_test n a) as [T|T].
  - destruct (U T) as (-> & -> & ->), (U' T) as (-> & -> & ->). repeat split.
  - destruct (W T) as (-> & -> & -> & _), (W' T) as (-> & -> & -> & _). repeat split.
Qed.

(** * An edge list and the matrix of its edges *)
Lemma u_edges_form (L : Type) (leb eqb : L -> L -> bool) (es : list (L * L)) : total_order leb eqb -> es <> [] -> simple_edges false es ->
  exists g es' n a g', u_construct leb eqb NoAdj (PairEdges es) NoSeq NoSeq = inl g /\
    u_edgelist g = Some (map (fun e => (e, None)) es') /\ build_adjacency_fast es' false = Adj n a /\
    u_construct leb eqb (ArrayAdj n a) NoEdges NoSeq NoSeq = inl g' /\
    u_n_nodes g = u_n_nodes g' /\ u_n_edges g = u_n_edges g' /\ u_dseq g = u_dseq g' /\
    u_is_weighted g = false /\ u_is_weighted g' = false /\ u_strength g = None /\ u_strength g' = None.
Proof.
  intros Ho HN HS. destruct (edgelist_undirected_closed L leb eqb es Ho HN) as (es' & deg & nodes & E & In_ & Hn & HR & HG & HL & HD & _).
  destruct (relabelled_adjacency L leb eqb es es' deg nodes Ho E) as (a & HA & HK). destruct (HK HS) as (k & Hk & Hd). clear HK.
  destruct (binary_nonneg _ _ _ _ HA) as (P & X & _).
  pose proof (gapless_pos _ nodes es' es HR HN HG) as Hpos.
  destruct (u_from_matrix_ok (@u_blank L) Ndarray false _ a ltac:(discriminate) P) as (g' & E' & I' & N' & D' & M' & _ & _ & _ & _ & U').
  destruct (U' (proj2 (test_excess _ a P) X)) as [W1 W2].
  assert (Q : map INR deg = row_degrees (length nodes) a).
  { apply (degrees_as_rows _ a deg k HL Hd). intros i _. unfold degree in Hk. simpl in Hk. injection Hk as <-. reflexivity. }
  unfold u_construct. destruct es as [|e0 es]; [contradiction HN; reflexivity|]. cbn [u_initialize u_init_edges u_init_adjacency]. rewrite E.
  eexists. exists es', (length nodes), a. eexists. split; [reflexivity|]. split; [reflexivity|]. split; [exact HA|].
  rewrite (proj2 (Nat.ltb_lt 0 (length nodes * length nodes)) ltac:(nia)), E'. split; [reflexivity|]. simpl.
  rewrite N', D', M', W1, W2, list_total_total, Q, row_degrees_length. repeat split.
Qed.
Lemma u_weighted_edges_form (L : Type) (leb eqb : L -> L -> bool) (es : list (L * L * R)) : total_order leb eqb -> es <> [] ->
  simple_edges false (map fst es) -> (forall e, In e es -> 0 < snd e) ->
  exists g es' n a g', u_construct leb eqb NoAdj (TripleEdges es) NoSeq NoSeq = inl g /\
    u_edgelist g = Some (map (fun e => (fst e, Some (snd e))) es') /\ build_adjacency_fast_weighted es' false = Adj n a /\
    u_construct leb eqb (ArrayAdj n a) NoEdges NoSeq NoSeq = inl g' /\
    u_n_nodes g = u_n_nodes g' /\ u_n_edges g = u_n_edges g' /\ u_dseq g = u_dseq g' /\
    u_strength g = Some (row_strengths n a) /\ u_is_weighted g = true /\
    (excess n a <> 0 -> u_strength g' = u_strength g /\ u_is_weighted g' = true).
Proof.
  intros Ho HN HS HP. destruct (edgelist_undirected_w_closed L leb eqb es Ho HN) as (es' & deg & st & nodes & E & In_ & Hn & HR & HW & HG & HL & HLs & HD & _).
  destruct (simple_map_relabel false nodes es' es HR) as [HR' HS']. specialize (HS' HS). pose proof (in_snd es' es HW HP) as HP'.
  destruct (weighted_gapless_adj es' false _ HG) as (a & HA). set (n := length nodes) in *.
  destruct (adjacency_gapless (map fst es') false n HG) as (b & HB).
  pose proof (adjacency_binary (map fst es') false) as W. rewrite HB in W. destruct W as (_ & HE & _).
  assert (PE : forall i j, positiveb (a i j) = positiveb (b i j)).
  { intros i j. rewrite HE, positiveb_ind. apply (weighted_entry false es' n a HS' HA i j). exact HP'. }
  assert (P : nonneg_matrix n a) by (intros i j _ _; apply (weighted_entry false es' n a HS' HA i j); exact HP').
  assert (Hpos : (0 < n)%nat).
  { apply (gapless_pos n nodes (map fst es') (map fst es) HR'); [destruct es; [contradiction HN; reflexivity|discriminate]|exact HG]. }
  destruct (u_from_matrix_ok (@u_blank L) Ndarray false n a ltac:(discriminate) P) as (g' & E' & I' & N' & D' & M' & _ & _ & _ & W' & _).
  assert (HV : forall i, (i < n)%nat -> exists v, nth_error nodes i = Some v).
  { intros i Hi. destruct (nth_error nodes i) as [v|] eqn:Ev; [eauto|]. apply nth_error_None in Ev. unfold n in Hi. lia. }
  assert (Q : map INR deg = row_degrees n a).
  { apply (degrees_as_rows n a deg (fun i => incidences Nat.eqb i (map fst es')) HL).
    - intros i Hi. destruct (HV i Hi) as [v Ev]. rewrite (proj1 (HD i v Ev)). f_equal. symmetry.
      apply (relabel_incidences leb eqb nodes (map fst es') (map fst es) i v Ho In_ HR' Ev).
    - intros i Hi. rewrite <- (adjacency_degrees_und (map fst es') n b _ HS' HB eq_refl i Hi). apply count_positive_ext. intros; symmetry; apply PE. }
  assert (Q' : st = row_strengths n a).
  { apply (list_as_map st n _ HLs). intros i Hi. destruct (HV i Hi) as [v Ev]. rewrite (proj2 (HD i v Ev)). f_equal.
    rewrite (weighted_row_und es' n a HS' HA i Hi). symmetry. apply (relabel_weights leb eqb nodes i v Ho In_ Ev es' es HR HW). }
  unfold u_construct. destruct es as [|e0 es]; [contradiction HN; reflexivity|]. cbn [u_initialize u_init_edges u_init_adjacency]. rewrite E.
  eexists. exists es', n, a. eexists. split; [reflexivity|]. split; [reflexivity|]. split; [exact HA|].
  rewrite (proj2 (Nat.ltb_lt 0 (n * n)) ltac:(nia)), E'. split; [reflexivity|]. simpl.
  rewrite N', D', M', list_total_total, Q, row_degrees_length. do 3 (split; [reflexivity|]). split; [rewrite Q'; reflexivity|]. split; [reflexivity|].
  intros X. destruct (W' ltac:(intros T; apply X, (test_excess n a P); exact T)) as [-> ->]. rewrite Q'. auto.
Qed.
Lemma d_edges_form (L : Type) (leb eqb : L -> L -> bool) (es : list (L * L)) : total_order leb eqb -> es <> [] -> simple_edges true es ->
  exists g es' n a g', d_construct leb eqb NoAdj (PairEdges es) NoSeq NoSeq = inl g /\
    d_edgelist g = Some (map (fun e => (e, None)) es') /\ build_adjacency_fast es' true = Adj n a /\
    d_construct leb eqb (ArrayAdj n a) NoEdges NoSeq NoSeq = inl g' /\
    d_n_nodes g = d_n_nodes g' /\ d_n_edges g = d_n_edges g' /\ d_dseq_out g = d_dseq_out g' /\ d_dseq_in g = d_dseq_in g' /\
    d_is_weighted g = false /\ d_is_weighted g' = false.
Proof.
  intros Ho HN HS. destruct (edgelist_directed_closed L leb eqb es Ho HN) as (es' & dout & din & nodes & E & In_ & Hn & HR & HG & HL & HL' & HD & _).
  pose proof (relabel_simple true nodes es' es HR HS) as HS'.
  destruct (adjacency_gapless es' true _ HG) as (a & HA). set (n := length nodes) in *.
  destruct (binary_nonneg _ _ _ _ HA) as (P & X & _).
  pose proof (gapless_pos _ nodes es' es HR HN HG) as Hpos.
  destruct (d_from_matrix_ok (@d_blank L) Ndarray false n a ltac:(discriminate) P) as (g' & E' & I' & N' & D' & D2' & M' & _ & _ & _ & U').
  destruct (U' (proj2 (test_excess _ a P) X)) as (W1 & _).
  assert (HV : forall i, (i < n)%nat -> exists v, nth_error nodes i = Some v).
  { intros i Hi. destruct (nth_error nodes i) as [v|] eqn:Ev; [eauto|]. apply nth_error_None in Ev. unfold n in Hi. lia. }
  assert (Q : map INR dout = row_degrees n a).
  { apply (degrees_as_rows n a dout (fun i => count (fun e => Nat.eqb (fst e) i) es') HL).
    - intros i Hi. destruct (HV i Hi) as [v Ev]. rewrite (proj1 (HD i v Ev)). f_equal. symmetry. apply (relabel_counts leb eqb nodes i v Ho In_ Ev es' es HR).
    - intros i Hi. symmetry. apply (adjacency_degrees_dir es' n a _ _ HS' HA eq_refl eq_refl i Hi). }
  assert (Q2 : map INR din = col_degrees n a).
  { apply (degrees_as_cols n a din (fun i => count (fun e => Nat.eqb (snd e) i) es') HL').
    - intros i Hi. destruct (HV i Hi) as [v Ev]. rewrite (proj2 (HD i v Ev)). f_equal. symmetry. apply (relabel_counts leb eqb nodes i v Ho In_ Ev es' es HR).
    - intros i Hi. symmetry. apply (adjacency_degrees_dir es' n a _ _ HS' HA eq_refl eq_refl i Hi). }
  unfold d_construct. destruct es as [|e0 es]; [contradiction HN; reflexivity|]. cbn [d_initialize d_init_edges d_init_adjacency]. rewrite E.
  eexists. exists es', n, a. eexists. split; [reflexivity|]. split; [reflexivity|]. split; [exact HA|].
  rewrite (proj2 (Nat.ltb_lt 0 (n * n)) ltac:(nia)), E'. split; [reflexivity|]. simpl.
  rewrite N', D', D2', M', W1, list_total_total, Q, Q2, row_degrees_length. repeat split.
Qed.
(** Weighted directed lists: the object of the list is not marked as weighted. *)
Lemma d_weighted_edges_form (L : Type) (leb eqb : L -> L -> bool) (es : list (L * L * R)) : total_order leb eqb -> es <> [] ->
  simple_edges true (map fst es) -> (forall e, In e es -> 0 < snd e) ->
  exists g es' n a g', d_construct leb eqb NoAdj (TripleEdges es) NoSeq NoSeq = inl g /\
    d_edgelist g = Some (map (fun e => (fst e, Some (snd e))) es') /\ build_adjacency_fast_weighted es' true = Adj n a /\
    d_construct leb eqb (ArrayAdj n a) NoEdges NoSeq NoSeq = inl g' /\
    d_n_nodes g = d_n_nodes g' /\ d_n_edges g = d_n_edges g' /\ d_dseq_out g = d_dseq_out g' /\ d_dseq_in g = d_dseq_in g' /\
    d_out_strength g = Some (row_strengths n a) /\ d_in_strength g = Some (col_strengths n a) /\
    d_is_weighted g = false /\ d_nz_sout g = None /\ d_nz_sin g = None /\
    (excess n a <> 0 -> d_out_strength g' = d_out_strength g /\ d_in_strength g' = d_in_strength g /\
       d_is_weighted g' = true /\ d_nz_sout g' <> None /\ d_nz_sin g' <> None).
Proof.
  intros Ho HN HS HP. destruct (edgelist_directed_w_closed L leb eqb es Ho HN) as (es' & dout & din & so & si & nodes & E & In_ & Hn & HR & HW & HG & HL & HL' & HLo & HLi & HD & _).
  destruct (simple_map_relabel true nodes es' es HR) as [HR' HS']. specialize (HS' HS). pose proof (in_snd es' es HW HP) as HP'.
  destruct (weighted_gapless_adj es' true _ HG) as (a & HA). set (n := length nodes) in *.
  destruct (adjacency_gapless (map fst es') true n HG) as (b & HB).
  pose proof (adjacency_binary (map fst es') true) as W. rewrite HB in W. destruct W as (_ & HE & _).
  assert (PE : forall i j, positiveb (a i j) = positiveb (b i j)).
  { intros i j. rewrite HE, positiveb_ind. apply (weighted_entry true es' n a HS' HA i j). exact HP'. }
  assert (P : nonneg_matrix n a) by (intros i j _ _; apply (weighted_entry true es' n a HS' HA i j); exact HP').
  assert (Hpos : (0 < n)%nat).
  { apply (gapless_pos n nodes (map fst es') (map fst es) HR'); [destruct es; [contradiction HN; reflexivity|discriminate]|exact HG]. }
  destruct (d_from_matrix_ok (@d_blank L) Ndarray false n a ltac:(discriminate) P) as (g' & E' & I' & N' & D' & D2' & M' & _ & _ & W' & _).
  assert (HV : forall i, (i < n)%nat -> exists v, nth_error nodes i = Some v).
  { intros i Hi. destruct (nth_error nodes i) as [v|] eqn:Ev; [eauto|]. apply nth_error_None in Ev. unfold n in Hi. lia. }
  assert (C : forall i v, nth_error nodes i = Some v ->
    count (fun e => Nat.eqb (fst e) i) (map fst es') = count (fun e => eqb (fst (fst e)) v) es /\
    count (fun e => Nat.eqb (snd e) i) (map fst es') = count (fun e => eqb (snd (fst e)) v) es).
  { intros i v Ev. destruct (relabel_counts leb eqb nodes i v Ho In_ Ev (map fst es') (map fst es) HR') as [-> ->].
    clear. split; (induction es as [|e es IH]; [reflexivity|]; simpl map; rewrite !count_cons', IH; reflexivity). }
  assert (Q : map INR dout = row_degrees n a).
  { apply (degrees_as_rows n a dout (fun i => count (fun e => Nat.eqb (fst e) i) (map fst es')) HL).
    - intros i Hi. destruct (HV i Hi) as [v Ev]. rewrite (proj1 (HD i v Ev)). f_equal. symmetry. apply (C i v Ev).
    - intros i Hi. rewrite <- (proj1 (adjacency_degrees_dir (map fst es') n b _ _ HS' HB eq_refl eq_refl i Hi)). apply count_positive_ext. intros; symmetry; apply PE. }
  assert (Q2 : map INR din = col_degrees n a).
  { apply (degrees_as_cols n a din (fun i => count (fun e => Nat.eqb (snd e) i) (map fst es')) HL').
    - intros i Hi. destruct (HV i Hi) as [v Ev]. rewrite (proj1 (proj2 (HD i v Ev))). f_equal. symmetry. apply (C i v Ev).
    - intros i Hi. rewrite <- (proj2 (adjacency_degrees_dir (map fst es') n b _ _ HS' HB eq_refl eq_refl i Hi)). apply count_positive_ext. intros; symmetry; apply PE. }
  assert (Q3 : so = row_strengths n a).
  { apply (list_as_map so n _ HLo). intros i Hi. destruct (HV i Hi) as [v Ev]. rewrite (proj1 (proj2 (proj2 (HD i v Ev)))). f_equal.
    rewrite (proj1 (weighted_row_dir es' n a HS' HA i Hi)). symmetry. apply (relabel_weights leb eqb nodes i v Ho In_ Ev es' es HR HW). }
  assert (Q4 : si = col_strengths n a).
  { apply (list_as_map si n _ HLi). intros i Hi. destruct (HV i Hi) as [v Ev]. rewrite (proj2 (proj2 (proj2 (HD i v Ev)))). f_equal.
    rewrite (proj2 (weighted_row_dir es' n a HS' HA i Hi)). symmetry. apply (relabel_weights leb eqb nodes i v Ho In_ Ev es' es HR HW). }
  unfold d_construct. destruct es as [|e0 es]; [contradiction HN; reflexivity|]. cbn [d_initialize d_init_edges d_init_adjacency]. rewrite E.
  eexists. exists es', n, a. eexists. split; [reflexivity|]. split; [reflexivity|]. split; [exact HA|].
  rewrite (proj2 (Nat.ltb_lt 0 (n * n)) ltac:(nia)), E'. split; [reflexivity|]. simpl.
  rewrite N', D', D2', M', list_total_total, Q, Q2, Q3, Q4, row_degrees_length. do 9 (split; [reflexivity|]).
  intros X. destruct (W' ltac:(intros T; apply X, (test_excess n a P); exact T)) as (-> & -> & -> & -> & ->).
  do 3 (split; [reflexivity|]). split; discriminate.
Qed.
(** Degree sequences against the matrix they come from. *)
Lemma u_sequence_form (L : Type) (leb eqb : L -> L -> bool) n a : (0 < n)%nat -> nonneg_matrix n a ->
  exists g g', u_construct leb eqb (ArrayAdj n a) NoEdges NoSeq NoSeq = inl g /\
    u_construct leb eqb NoAdj NoEdges (SeqArray (row_degrees n a)) (if Req_EM_T (excess n a) 0 then NoSeq else SeqArray (row_strengths n a)) = inl g' /\
    u_n_nodes g' = u_n_nodes g /\ u_n_edges g' = u_n_edges g /\ u_dseq g' = u_dseq g /\ u_strength g' = u_strength g /\ u_is_weighted g' = u_is_weighted g.
Proof.
  intros Hn Ha. destruct (u_from_matrix_ok (@u_blank L) Ndarray false n a ltac:(discriminate) Ha) as (g & E & I & N & D & M & A & _ & S & W & U).
  unfold u_construct at 1. cbn [u_initialize u_init_adjacency]. rewrite (proj2 (Nat.ltb_lt 0 (n * n)) ltac:(nia)), E.
  assert (ND : list_has_negative (row_degrees n a) = false).
  { apply list_has_negative_spec. intros r Hr. apply in_map_iff in Hr. destruct Hr as (i & <- & _). apply pos_INR. }
  assert (NS : list_has_negative (row_strengths n a) = false).
  { apply list_has_negative_spec. intros r Hr. apply in_map_iff in Hr. destruct Hr as (i & <- & Hi). apply in_seq in Hi. apply rsum_nonneg. intros j Hj. apply Ha; lia. }
  assert (LS : length (row_strengths n a) = n) by (unfold row_strengths; rewrite map_length, seq_length; reflexivity).
  assert (LD := row_degrees_length n a).
  unfold u_construct. cbn [u_initialize].
  destruct (row_degrees n a) as [|r dl] eqn:Er; [simpl in LD; lia|]. rewrite <- Er in *.
  destruct (row_strengths n a) as [|t sl] eqn:Et; [simpl in LS; lia|].
  destruct (sum_test n a) as [T|T].
  - destruct (U T) as [W1 W2]. destruct (Req_EM_T (excess n a) 0) as [X|X]; [|elim X; apply (test_excess n a Ha); exact T].
    rewrite Er. cbn [u_init_degrees]. rewrite <- Er, ND. eexists _, _. split; [reflexivity|]. split; [reflexivity|]. simpl.
    rewrite N, D, M, W1, W2, list_total_total, LD. repeat split.
  - destruct (W T) as [W1 W2]. destruct (Req_EM_T (excess n a) 0) as [X|X]; [elim T; apply (test_excess n a Ha); exact X|].
    rewrite Er. cbn [u_init_degrees]. rewrite <- Er, ND. cbn [u_init_strengths_with]. rewrite NS, LS, LD, Nat.eqb_refl.
    eexists _, _. split; [reflexivity|]. split; [reflexivity|]. simpl. rewrite N, D, M, W1, W2, list_total_total. repeat split; congruence.
Qed.
